(** Energy released by fission.
    Source: /repo/ASAPy/data/fission_energy.py:16-20, 93-101, 131-159, 196-380;
            /repo/ASAPy/data/function.py:17-54; /repo/ASAPy/data/neutron.py:114-121.
    Simplifications: exact rationals; [None] is an exception; an evaluation is its target
    and the text of its section (1, 458), if it has one; that the evaluation is one and that
    the components are callable is not checked again; yields are polynomials or tables (with
    any other function as yield, line 317 would use the preceding component, fragments);
    arrays of different lengths are refused, also where numpy would repeat a single entry. *)
From Coq Require Import ZArith QArith Qcanon List Bool String.
From Verif Require Import Num Text Endf_Model Neut_Model Hdf_Model.
Import ListNotations.
Local Open Scope string_scope.
Local Open Scope list_scope.
Local Open Scope Z_scope.

Local Notation "'do' x <- e ; k" :=
  (match e with Some x => k | None => None end) (at level 60, x pattern, e at level 59, k at level 60).

(** fission_energy.py:16-20. *)
Definition names : list string :=
  ["fragments"; "prompt_neutrons"; "delayed_neutrons"; "prompt_photons"; "delayed_photons"; "betas"; "neutrinos"; "recoverable"; "total"].
(** fission_energy.py:93-101. *)
Record release := mkRelease { e_fragments : yield; e_prompt_neutrons : yield; e_delayed_neutrons : yield;
  e_prompt_photons : yield; e_delayed_photons : yield; e_betas : yield; e_neutrinos : yield }.

(** ** Sums *)
Section Sums.
Context {D A : Type} (R : readers D A).

(** The value of a numpy polynomial (function.py:403), of either kind of function. *)
Fixpoint horner (c : list Qc) (x : Qc) : Qc := match c with [] => 0%Qc | a :: r => (a + x * horner r x)%Qc end.
Definition value_at (f : yield) (x : Qc) : option Qc := match f with Tabd t => Neut_Model.call_at R t x | Poly c => Some (horner c x) end.
(** function.py:35-43: the abscissae of the tables; [None]: ValueError; a table without
    points cannot be evaluated (function.py:207). *)
Fixpoint grids (fs : list yield) : option (list (list Qc)) :=
  match fs with
  | [] => Some []
  | Tabd t :: r => if forallb (Z.eqb 2) (fint t) && negb (Nat.eqb (List.length (fx t)) 0) then option_map (cons (fx t)) (grids r) else None
  | Poly _ :: r => grids r
  end.
(** function.py:48 at one abscissa. *)
Definition sum_at (fs : list yield) (x : Qc) : option Qc := option_map qsum (all_some (map (fun f => value_at f x) fs)).
(** function.py:53: [zip_longest] with 0. *)
Fixpoint cadd (a b : list Qc) : list Qc :=
  match a, b with [], _ => b | _, [] => a | x :: a', y :: b' => (x + y)%Qc :: cadd a' b' end.
Definition coeffs (f : yield) : list Qc := match f with Poly c => c | Tabd _ => [] end.
(** function.py:17-54. *)
Definition sum_functions (fs : list yield) : option yield :=
  do gs <- grids fs;
  match gs with
  | [] => match fold_right cadd [] (map coeffs fs) with [] => None | c => Some (Poly c) end
  | g :: gs' =>
      let x := fold_left union1d gs' g in
      do y <- all_some (map (sum_at fs) x);
      Some (Tabd (linear x y))
  end.
(** fission_energy.py:131-135. *)
Definition recoverable (r : release) : option yield :=
  sum_functions [e_fragments r; e_prompt_neutrons r; e_delayed_neutrons r; e_prompt_photons r; e_delayed_photons r; e_betas r].
(** fission_energy.py:137-142. *)
Definition total (r : release) : option yield :=
  sum_functions [e_fragments r; e_prompt_neutrons r; e_delayed_neutrons r; e_prompt_photons r; e_delayed_photons r; e_betas r; e_neutrinos r].
(** [Polynomial((0.0, -1.0))] of fission_energy.py:148, 154, 159. *)
Definition minus_energy : yield := Poly [0%Qc; (- (1))%Qc].
(** fission_energy.py:144-149, 151-154, 156-159. *)
Definition q_prompt (r : release) : option yield :=
  sum_functions [e_fragments r; e_prompt_neutrons r; e_prompt_photons r; minus_energy].
Definition q_recoverable (r : release) : option yield := do f <- recoverable r; sum_functions [f; minus_energy].
Definition q_total (r : release) : option yield := do f <- total r; sum_functions [f; minus_energy].

(** ** HDF5 *)
(** [f.to_hdf5(group, name)]. *)
Definition put (name : string) (f : yield) (n : node) : option node := do c <- yield_node f; create name c n.
(** fission_energy.py:362-380. *)
Definition to_hdf5 (r : release) (n : node) : option node :=
  do n <- put "fragments" (e_fragments r) n;
  do n <- put "prompt_neutrons" (e_prompt_neutrons r) n;
  do n <- put "delayed_neutrons" (e_delayed_neutrons r) n;
  do n <- put "prompt_photons" (e_prompt_photons r) n;
  do n <- put "delayed_photons" (e_delayed_photons r) n;
  do n <- put "betas" (e_betas r) n;
  do n <- put "neutrinos" (e_neutrinos r) n;
  do p <- q_prompt r; do n <- put "q_prompt" p n;
  do q <- q_recoverable r; put "q_recoverable" q n.
End Sums.
(** [Function1D.from_hdf5(group[name])]. *)
Definition get (name : string) (n : node) : option yield := do c <- kid n name; yield_of c.
(** fission_energy.py:335-360. *)
Definition from_hdf5 (n : node) : option release :=
  do a <- get "fragments" n; do b <- get "prompt_neutrons" n; do c <- get "delayed_neutrons" n;
  do d <- get "prompt_photons" n; do e <- get "delayed_photons" n; do f <- get "betas" n; do g <- get "neutrinos" n;
  Some (mkRelease a b c d e f g).

(** ** ENDF *)
(** fission_energy.py:216-224: atomic number, mass number, isomeric state. *)
Record nuclide := mkNuclide { z_of : Z; a_of : Z; m_of : Z }.
(** [data[2*i::18]] (fission_energy.py:246). *)
Fixpoint strided (fuel : nat) (l : list Qc) : list Qc :=
  match fuel, l with S k, v :: _ => v :: strided k (skipn 18 l) | _, _ => [] end.
Definition column (i : nat) (data : list Qc) : list Qc := strided (List.length data) (skipn (2 * i) data).
(** fission_energy.py:255-261; [None]: IndexError. *)
Definition corrected (c : list Qc) : option (list Qc) :=
  do v <- nth_error c 2;
  if qltb (qz 100000000) (qabs v * (qz 5000000 * qz 5000000))%Qc
  then Some (firstn 2 c ++ (v / EV_PER_MEV)%Qc :: skipn 3 c)
  else Some c.
(** A numpy polynomial; [None]: without coefficients. *)
Definition polynomial (c : list Qc) : option yield := match c with [] => None | _ => Some (Poly c) end.

Section Reading.
Context {D A : Type}.
(** fission_energy.py:283-285: the yields of prompt, or all, neutrons. *)
Definition nu_yields (ps : list (product (D := D) (A := A))) : list yield :=
  map (fun p => p_yield p) (filter (fun p => p_neutron p && match p_mode p with Delayed => false | _ => true end) ps).
(** [mt in incident_neutron], [incident_neutron[mt]] (neutron.py:114-121). *)
Definition at_mt (rs : list (Z * reaction (D := D) (A := A))) (mt : Z) : option reaction := option_map snd (find (fun e => fst e =? mt) rs).
(** fission_energy.py:282-301. *)
Definition nu_data (rs : list (Z * reaction)) : option yield :=
  do l <- match at_mt rs 18 with
          | Some r => if r_redundant r then option_map (fun r => nu_yields (r_products r)) (at_mt rs 19) else Some (nu_yields (r_products r))
          | None => option_map (fun r => nu_yields (r_products r)) (at_mt rs 19)
          end;
  match l with [nu] => Some nu | _ => None end.
(** 1.307 and 8.07e6 of fission_energy.py:305-313. *)
Definition per_energy : Qc := qc 1307 1000.
Definition per_neutron : Qc := qz 8070000.
(** fission_energy.py:302-313. *)
Definition sher_beck (e0 : Qc) (nu : yield) : option yield :=
  match nu with
  | Tabd t =>
      match fy t with
      | [] => None
      | y0 :: _ =>
          if Nat.eqb (List.length (fx t)) (List.length (fy t))
          then Some (Tabd (mkFn (fx t) (map (fun p => e0 + per_energy * fst p - per_neutron * (snd p - y0))%Qc (combine (fx t) (fy t))) (fbp t) (fint t)))
          else None
      end
  | Poly c =>
      match c with
      | [] => None
      | [_] => Some (Poly [e0; per_energy])
      | _ :: c1 :: more => Some (Poly (e0 :: (per_energy - per_neutron * c1)%Qc :: map (fun v => - per_neutron * v)%Qc more))
      end
  end.
(** fission_energy.py:246-315: one component. *)
Definition component (rs : list (Z * reaction)) (npoly : Z) (data : list Qc) (i : nat) (name : string) : option yield :=
  let c := column i data in
  do c <- (if npoly =? 2 then corrected c else Some c);
  if 0 <? npoly then polynomial c
  else
    do e0 <- nth_error c 0;
    if String.eqb name "delayed_photons" || String.eqb name "betas" then Some (Poly [e0; qc (-75) 1000])
    else if String.eqb name "neutrinos" then Some (Poly [e0; qc (-105) 1000])
    else if String.eqb name "prompt_neutrons" then do nu <- nu_data rs; sher_beck e0 nu
    else polynomial c.
(** fission_energy.py:243-317. *)
Fixpoint components (rs : list (Z * reaction)) (npoly : Z) (data : list Qc) (i : nat) (ns : list string) : option (list (string * yield)) :=
  match ns with
  | [] => Some []
  | name :: ns' =>
      if String.eqb name "recoverable" || String.eqb name "total" then components rs npoly data (S i) ns'
      else do f <- component rs npoly data i name;
           do fs <- components rs npoly data (S i) ns'; Some ((name, f) :: fs)
  end.
(** [functions[name] = f]. *)
Fixpoint assign (k : string) (f : yield) (l : list (string * yield)) : list (string * yield) :=
  match l with [] => [(k, f)] | (k', f') :: r => if String.eqb k k' then (k, f) :: r else (k', f') :: assign k f r end.
(** fission_energy.py:321-330. *)
Fixpoint tables (n : nat) (f : file) (l : list (string * yield)) : option (list (string * yield)) :=
  match n with
  | O => Some l
  | S k =>
      do (_, _, _, ifc, rg, ps, f') <- get_tab1_record f;
      do name <- Neut_Model.at_ names (ifc - 1);
      tables k f' (assign name (Tabd (mkFn (map fst ps) (map snd ps) (map fst rg) (map snd rg))) l)
  end.
(** The constructor with the functions as keywords (fission_energy.py:333); [None]: TypeError. *)
Definition build (l : list (string * yield)) : option release :=
  do a <- look "fragments" l; do b <- look "prompt_neutrons" l; do c <- look "delayed_neutrons" l;
  do d <- look "prompt_photons" l; do e <- look "delayed_photons" l; do f <- look "betas" l; do g <- look "neutrinos" l;
  if Nat.eqb (List.length l) 7 then Some (mkRelease a b c d e f g) else None.
(** fission_energy.py:196-333. *)
Definition from_endf (target : nuclide) (fissionable : bool) (section : option file) (nuc : nuclide) (rs : list (Z * reaction)) : option release :=
  if negb (z_of target =? z_of nuc) then None
  else if negb (a_of target =? a_of nuc) then None
  else if negb (m_of target =? m_of nuc) then None
  else if negb fissionable then None
  else
    do f <- section;
    do (items, f1) <- get_cont_record false f;
    do (items2, data, f2) <- get_list_record f1;
    do l <- components rs (l2 items2) data 0 names;
    do l <- (if l2 items =? 1 then tables (Z.to_nat (n2 items)) f2 l else Some l);
    build l.
End Reading.
