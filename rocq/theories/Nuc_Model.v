(** The data of a nuclide in HDF5: reactions, probability tables, the nuclide.
    Source: /repo/ASAPy/data/reaction.py:799-807 (defaults), 873-956;
            /repo/ASAPy/data/urr.py:69-173; /repo/ASAPy/data/neutron.py:100-235, 401-568;
            /repo/ASAPy/data/data.py:370; /repo/ASAPy/data/function.py:500-512.
    Simplifications: an exception is [None] (the file keeps what was written before it); values
    come back from HDF5 as written, and iterating over a group goes by name; the label and the
    version, which are written and not used, are left out; there is no fission energy release; a
    reaction has a cross section wherever it has a temperature; indices of grids are not
    negative (where Python counts from the end); numbers are exact. *)
From Coq Require Import ZArith QArith Qcanon Qround List Bool Arith String Ascii.
From Coq Require Import DecimalString.
From Verif Require Import Num Neut_Model Law_Model Hdf_Model.
From Verif Require Sums_Model.
Import ListNotations.
Local Open Scope string_scope.
Local Open Scope list_scope.
Local Open Scope Z_scope.

Local Notation "'do' x <- e ; k" :=
  (match e with Some x => k | None => None end) (at level 60, x pattern, e at level 59, k at level 60).

(** ** h5py *)
(** Iterating over a group goes by name (reaction.py:930, 947; neutron.py:511, 520, 528, 560;
    h5py's default); [sorted] of neutron.py:533 does so too. *)
Fixpoint insert {A} (e : string * A) (l : list (string * A)) : list (string * A) :=
  match l with [] => [e] | f :: r => if String.leb (fst e) (fst f) then e :: f :: r else f :: insert e r end.
Definition ordered {A} (l : list (string * A)) : list (string * A) := fold_right insert [] l.
(** [group.items()]. *)
Definition items (n : node) : list (string * node) := let 'Node _ _ ks := n in ordered ks.
(** [T.endswith('K')] of reaction.py:931. *)
Fixpoint ends_in_k (s : string) : bool :=
  match s with EmptyString => false | String c EmptyString => Ascii.eqb c "K" | String _ r => ends_in_k r end.
(** The array of urr.py:147, 170. *)
Definition cube (v : option val) : option (list (list (list Qc))) := match v with Some (VCube t) => Some t | _ => None end.

(** ** Reactions *)
(** A cross section: a tabulated function with its [_threshold_idx], if it has one, or a sum
    of functions (function.py:500-512, neutron.py:555). *)
Inductive xsec := Table (f : fn) (idx : option Z) | Added (l : list xsec).
(** reaction.py:799-807; cross sections by temperature. *)
Record nrx := mkNrx {
  x_mt : Z; x_q : Qc; x_cm : bool; x_redundant : bool;
  x_xs : list (string * xsec); x_products : list prod; x_derived : list prod }.
(** [1 if b else 0], [bool(z)]: reaction.py:889-890, 926-927; urr.py:144, 167. *)
Definition int_of (b : bool) : val := VInt (if b then 1 else 0).
Definition truth (z : Z) : bool := negb (z =? 0).
(** reaction.py:894-899: a sum has no [y] (AttributeError). *)
Definition xs_node (x : xsec) : option node :=
  match x with
  | Table f idx => create "xs" (Node [("threshold_idx", VInt (match idx with Some i => i + 1 | None => 1 end))] (Some (VNums (fy f))) []) group
  | Added _ => None
  end.
(** reaction.py:891-899. *)
Fixpoint write_xs (l : list (string * xsec)) (n : node) : option node :=
  match l with [] => Some n | (t, x) :: r => do g <- xs_node x; do n <- create t g n; write_xs r n end.
(** reaction.py:900-902. *)
Fixpoint write_products (i : nat) (l : list prod) (n : node) : option node :=
  match l with [] => Some n | p :: r => do g <- product_node p group; do n <- create (numbered "product_" i) g n; write_products (S i) r n end.
(** reaction.py:873-902. *)
Definition rx_node (r : nrx) : option node :=
  do n <- write_xs (x_xs r) (Node [("mt", VInt (x_mt r)); ("Q_value", VNum (x_q r)); ("center_of_mass", int_of (x_cm r)); ("redundant", int_of (x_redundant r))] None []);
  write_products 0 (x_products r) n.
(** reaction.py:930-943. *)
Fixpoint read_xs (energy : list (string * list Qc)) (l : list (string * node)) : option (list (string * xsec)) :=
  match l with
  | [] => Some []
  | (t, g) :: r =>
      if ends_in_k t then
        match kid g "xs" with
        | None => read_xs energy r
        | Some d =>
            do es <- look t energy;
            do y <- nums (value d); do i <- integer (attr d "threshold_idx");
            do r <- read_xs energy r;
            Some ((t, Table (linear (skipn (Z.to_nat (i - 1)) es) y) (Some (i - 1))) :: r)
        end
      else read_xs energy r
  end.
(** reaction.py:946-949. *)
Definition count_products (l : list (string * node)) : nat := length (filter (fun e => String.prefix "product_" (fst e)) l).
(** reaction.py:904-956. *)
Definition rx_of (energy : list (string * list Qc)) (n : node) : option nrx :=
  do mt <- integer (attr n "mt"); do q <- num (attr n "Q_value");
  do cm <- integer (attr n "center_of_mass");
  do red <- match attr n "redundant" with None => Some 0 | Some v => integer (Some v) end;
  do xs <- read_xs energy (items n);
  do ps <- all_some (map (fun i => do g <- kid n (numbered "product_" i); product_of g) (seq 0 (count_products (items n))));
  Some (mkNrx mt q (truth cm) (truth red) xs ps []).

(** ** Probability tables *)
(** urr.py:132-147. *)
Definition urr_node (u : urr) : option node :=
  do n <- create "energy" (dataset (VNums (u_energy u)))
            (Node [("interpolation", VInt (u_interp u)); ("inelastic", VInt (u_inelastic u)); ("absorption", VInt (u_absorption u)); ("multiply_smooth", int_of (u_smooth u))] None []);
  create "table" (dataset (VCube (u_table u))) n.
(** urr.py:150-173 with the setter 117-120. *)
Definition urr_of (n : node) : option urr :=
  do i <- integer (attr n "interpolation"); do ine <- integer (attr n "inelastic"); do a <- integer (attr n "absorption");
  do s <- integer (attr n "multiply_smooth");
  do e <- kid n "energy"; do es <- nums (value e); do t <- kid n "table"; do tb <- cube (value t);
  if (i =? 2) || (i =? 5) then Some (mkUrr es tb i ine a (truth s)) else None.

(** ** Nuclides *)
(** data.py:370. *)
Definition K_BOLTZMANN : Qc := qc 86173303 1000000000000.
(** Python's [round]: the nearest integer, of two the even one. *)
Definition round_half_even (q : Qc) : Z :=
  let f := Qfloor q in
  let d := (q - qz f)%Qc in
  if qltb d (qc 1 2) then f else if qltb (qc 1 2) d then f + 1 else if Z.even f then f else f + 1.
(** neutron.py:169-171: one of [temperatures]. *)
Definition kelvin (kt : Qc) : string := String.append (NilZero.string_of_int (Z.to_int (round_half_even (kt / K_BOLTZMANN)))) "K".
(** neutron.py:100-112; [d_endf]: there is [_evaluation] (from an ENDF file). *)
Record nuclide := mkNuclide {
  d_endf : bool; d_name : string; d_z : Z; d_a : Z; d_m : Z; d_awr : Qc; d_kts : list Qc;
  d_energy : list (string * list Qc); d_rx : list (Z * nrx); d_urr : list (string * urr) }.
Definition temperatures (d : nuclide) : list string := map kelvin (d_kts d).
(** neutron.py:433-434, 438-439, 468-470: data by name, in a group. *)
Fixpoint write_all {A} (f : A -> option node) (l : list (string * A)) (n : node) : option node :=
  match l with [] => Some n | (k, a) :: r => do c <- f a; do n <- create k c n; write_all f r n end.
(** neutron.py:451-455. *)
Definition skipped (r : nrx) : bool :=
  x_redundant r && negb (existsb (fun p => negb (p_neutron p)) (x_products r) || existsb (Z.eqb (x_mt r)) [16; 103; 104; 105; 106; 107] || (x_mt r =? 4)).
(** neutron.py:457: ['reaction_{:03}'.format(mt)], [mt] not negative. *)
Fixpoint zeros (n : nat) (s : string) : string := match n with O => s | S k => String "0" (zeros k s) end.
Definition reaction_name (mt : Z) : string := let s := digits (Z.to_nat mt) in String.append "reaction_" (zeros (3 - String.length s) s).
(** neutron.py:447-463: the group of reactions, and that of total nu if there is one. *)
Fixpoint write_reactions (l : list (Z * nrx)) (n : node) (nu : option node) : option (node * option node) :=
  match l with
  | [] => Some (n, nu)
  | (_, r) :: rest =>
      if skipped r then write_reactions rest n nu
      else
        do g <- rx_node r; do n <- create (reaction_name (x_mt r)) g n;
        do nu <- match nu, x_derived r with
                 | None, p :: _ => option_map Some (product_node p group)
                 | _, _ => Some nu
                 end;
        write_reactions rest n nu
  end.
(** neutron.py:438-443: the grids; KeyError if there is none. *)
Definition grids (d : nuclide) : option (list (string * list Qc)) :=
  do l <- all_some (map (fun t => do es <- look t (d_energy d); Some (t, es)) (temperatures d));
  Some (match look "0K" (d_energy d) with
        | Some es => if existsb (String.eqb "0K") (temperatures d) then l else l ++ [("0K", es)]
        | None => l
        end).
(** neutron.py:427-470: the group of the nuclide. *)
Definition nuclide_node (d : nuclide) : option node :=
  let g := Node [("Z", VInt (d_z d)); ("A", VInt (d_a d)); ("metastable", VInt (d_m d)); ("atomic_weight_ratio", VNum (d_awr d))] None [] in
  do k <- write_all (fun q => Some (dataset (VNum q))) (combine (temperatures d) (d_kts d)) group;
  do g <- create "kTs" k g;
  do es <- grids d;
  do e <- write_all (fun l => Some (dataset (VNums l))) es group;
  do g <- create "energy" e g;
  do (rs, nu) <- write_reactions (d_rx d) group None;
  do g <- create "reactions" rs g;
  do g <- match nu with None => Some g | Some t => create "total_nu" t g end;
  match d_urr d with
  | [] => Some g
  | l => do u <- write_all urr_node l group; create "urr" u g
  end.
(** The groups of a file. *)
Definition file := list (string * node).
(** neutron.py:401-477, the file opened with mode 'a'. *)
Definition export_to_hdf5 (d : nuclide) (f : file) : option file :=
  if d_endf d then None
  else match look (d_name d) f with
       | Some _ => None
       | None => do g <- nuclide_node d; Some (f ++ [(d_name d, g)])
       end.
(** neutron.py:520-521, 528-529, 560-561: everything in a group. *)
Definition read_all {A} (f : node -> option A) (n : node) : option (list (string * A)) :=
  all_some (map (fun e => option_map (pair (fst e)) (f (snd e))) (items n)).
(** neutron.py:539-541, 551-553. *)
Definition total_nu (g : node) : option (list prod) := match kid g "total_nu" with None => Some [] | Some t => option_map (fun p => [p]) (product_of t) end.
(** neutron.py:533-541. *)
Definition read_reaction (g : node) (energy : list (string * list Qc)) (data : list (Z * nrx)) (e : string * node) : option (list (Z * nrx)) :=
  if String.prefix "reaction_" (fst e) then
    do r <- rx_of energy (snd e);
    do nu <- if existsb (Z.eqb (x_mt r)) [18; 19; 20; 21; 38] then total_nu g else Some [];
    Some (assign (x_mt r) (mkNrx (x_mt r) (x_q r) (x_cm r) (x_redundant r) (x_xs r) (x_products r) nu) data)
  else Some data.
(** [data[mt]]: neutron.py:117-121. *)
Definition reaction_at (data : list (Z * nrx)) (mt : Z) : option nrx := option_map snd (find (fun e => fst e =? mt) data).
(** neutron.py:546-555: one redundant reaction. *)
Definition rebuild (g : node) (temps : list string) (data : list (Z * nrx)) (rule : Z * list Z) : option (list (Z * nrx)) :=
  let '(mt, parts) := rule in
  if present data mt then Some data
  else
    match flat_map (fun m => match reaction_at data m with Some r => [r] | None => [] end) parts with
    | [] => Some data
    | rxs =>
        do nu <- if mt =? 18 then total_nu g else Some [];
        do xs <- all_some (map (fun t => do l <- all_some (map (fun r => look t (x_xs r)) rxs); Some (t, Added l)) temps);
        Some (assign mt (mkNrx mt 0%Qc true true xs [] nu) data)
    end.
(** neutron.py:513-568, with the setters 173-206; the rules are in ascending order. *)
Definition nuclide_of (name : string) (g : node) : option nuclide :=
  do z <- integer (attr g "Z"); do a <- integer (attr g "A"); do m <- integer (attr g "metastable"); do awr <- num (attr g "atomic_weight_ratio");
  do kg <- kid g "kTs"; do kts <- read_all (fun n => num (value n)) kg;
  if (0 <=? z) && (0 <=? a) && (0 <=? m) && qltb 0 awr then
    do eg <- kid g "energy"; do energy <- read_all (fun n => nums (value n)) eg;
    do rg <- kid g "reactions"; do data <- loop (read_reaction g energy) (items rg) [];
    do data <- loop (rebuild g (map kelvin (map snd kts))) (rev Sums_Model.sum_rules) data;
    do us <- match kid g "urr" with None => Some [] | Some u => read_all urr_of u end;
    Some (mkNuclide false name z a m awr (map snd kts) energy data us)
  else None.
(** neutron.py:498-511: the first group of the file. *)
Definition from_hdf5 (f : file) : option nuclide :=
  match ordered f with [] => None | (name, g) :: _ => nuclide_of name g end.

(** ** From an ACE table *)
(** reaction.py:997-999, 1058-1060; neutron.py:628-632, 862-866: a reaction read from a table,
    XSS being [x]. *)
Definition of_rx (t : string) (x : list Qc) (r : @reaction law angle) : nrx :=
  mkNrx (r_mt r) (r_q r) (r_cm r) (r_redundant r) [(t, Table (linear (r_energy r) (elements x (r_xs r))) (r_idx r))] (r_products r) (r_derived r).
(** neutron.py:601-616, 699-704: the nuclide read, with [kt] its only temperature. *)
Definition of_ace (name : string) (z a m : Z) (awr kt : Qc) (n : @neutron law angle) (x : list Qc) : nuclide :=
  let t := kelvin kt in
  mkNuclide false name z a m awr [kt] [(t, n_energy n)] (map (fun e => (fst e, of_rx t x (snd e))) (n_reactions n)) (match n_urr n with Some u => [(t, u)] | None => [] end).
