(** Photon data from ACE tables: data/photon.py.
    Source: /repo/ASAPy/data/photon.py:22-35, 161-265 (AtomicRelaxation), 427-521
            (IncidentPhoton.from_ace), 814-949 (PhotonReaction.from_ace).
    Simplifications: exact rationals, [np.exp] is the argument [exp]; [None] is an exception;
    the atomic number, which comes from the name of the table, is left out (C42, C43); data
    frames are lists of rows, dictionaries lists of pairs; a designator 0 among the subshells
    of the table raises at once (in the code when the dictionaries are set). *)
From Coq Require Import ZArith QArith Qcanon List Bool String.
From Verif Require Import Num Neut_Model Hdf_Model.
From Verif Require Sab_Model.
Import ListNotations.
Local Open Scope string_scope.
Local Open Scope list_scope.
Local Open Scope Z_scope.
Local Notation "'do' x <- e ; f" := (match e with Some x => f | None => None end) (at level 200, x pattern, e at level 100, f at level 200).

(** photon.py:22-26. *)
Definition SUBSHELLS : list string :=
  ["K"; "L1"; "L2"; "L3"; "M1"; "M2"; "M3"; "M4"; "M5";
   "N1"; "N2"; "N3"; "N4"; "N5"; "N6"; "N7"; "O1"; "O2";
   "O3"; "O4"; "O5"; "O6"; "O7"; "O8"; "O9"; "P1"; "P2";
   "P3"; "P4"; "P5"; "P6"; "P7"; "P8"; "P9"; "P10"; "P11";
   "Q1"; "Q2"; "Q3"].
(** photon.py:30-34; IndexError beyond the list, Python's negative indices before it. *)
Definition subshell (i : Z) : option (option string) :=
  if i =? 0 then Some None else option_map Some (at_ SUBSHELLS (i - 1)).
(** A subshell that must be one. *)
Definition shell_of (i : Z) : option string := do s <- subshell i; s.

(** photon.py:37-89. *)
Definition REACTION_NAME : list (Z * string) :=
  [(501, "Total photon interaction");
   (502, "Photon coherent scattering");
   (504, "Photon incoherent scattering");
   (515, "Pair production, electron field");
   (516, "Total pair production");
   (517, "Pair production, nuclear field");
   (522, "Photoelectric absorption");
   (526, "Electro-atomic scattering");
   (527, "Electro-atomic bremsstrahlung");
   (528, "Electro-atomic excitation");
   (534, "K (1s1/2) subshell photoelectric");
   (535, "L1 (2s1/2) subshell photoelectric");
   (536, "L2 (2p1/2) subshell photoelectric");
   (537, "L3 (2p3/2) subshell photoelectric");
   (538, "M1 (3s1/2) subshell photoelectric");
   (539, "M2 (3p1/2) subshell photoelectric");
   (540, "M3 (3p3/2) subshell photoelectric");
   (541, "M4 (3d3/2) subshell photoelectric");
   (542, "M5 (3d5/2) subshell photoelectric");
   (543, "N1 (4s1/2) subshell photoelectric");
   (544, "N2 (4p1/2) subshell photoelectric");
   (545, "N3 (4p3/2) subshell photoelectric");
   (546, "N4 (4d3/2) subshell photoelectric");
   (547, "N5 (4d5/2) subshell photoelectric");
   (548, "N6 (4f5/2) subshell photoelectric");
   (549, "N7 (4f7/2) subshell photoelectric");
   (550, "O1 (5s1/2) subshell photoelectric");
   (551, "O2 (5p1/2) subshell photoelectric");
   (552, "O3 (5p3/2) subshell photoelectric");
   (553, "O4 (5d3/2) subshell photoelectric");
   (554, "O5 (5d5/2) subshell photoelectric");
   (555, "O6 (5f5/2) subshell photoelectric");
   (556, "O7 (5f7/2) subshell photoelectric");
   (557, "O8 (5g7/2) subshell photoelectric");
   (558, "O9 (5g9/2) subshell photoelectric");
   (559, "P1 (6s1/2) subshell photoelectric");
   (560, "P2 (6p1/2) subshell photoelectric");
   (561, "P3 (6p3/2) subshell photoelectric");
   (562, "P4 (6d3/2) subshell photoelectric");
   (563, "P5 (6d5/2) subshell photoelectric");
   (564, "P6 (6f5/2) subshell photoelectric");
   (565, "P7 (6f7/2) subshell photoelectric");
   (566, "P8 (6g7/2) subshell photoelectric");
   (567, "P9 (6g9/2) subshell photoelectric");
   (568, "P10 (6h9/2) subshell photoelectric");
   (569, "P11 (6h11/2) subshell photoelectric");
   (570, "Q1 (7s1/2) subshell photoelectric");
   (571, "Q2 (7p1/2) subshell photoelectric");
   (572, "Q3 (7p3/2) subshell photoelectric")].
(** [_REACTION_NAME[mt]] (photon.py:821-826). *)
Definition reaction_name (mt : Z) : option string := option_map snd (find (fun e => fst e =? mt) REACTION_NAME).

(** ** Atomic relaxation *)
(** A row of a data frame (photon.py:240-260): secondary and tertiary subshell, energy, probability. *)
Definition row := (option string * option string * Qc * Qc)%type.
(** photon.py:161-164. *)
Record relaxation := mkRelaxation { r_binding : list (string * Qc); r_electrons : list (string * Qc); r_transitions : list (string * list row) }.
(** photon.py:231-237: [d[shell] = value] for the pairs. *)
Definition fill {A} (l : list (string * A)) : list (string * A) := fold_left (fun d e => Sab_Model.set_at (fst e) (snd e) d) l [].
(** photon.py:246-257: [n] rows from [idx] on. *)
Fixpoint records (x : list Qc) (idx : Z) (first : bool) (n : nat) : option (list row * Z) :=
  match n with
  | O => Some ([], idx)
  | S n' =>
      do j <- int_at x idx;
      do subj <- subshell j;
      do k <- int_at x (idx + 1);
      do subk <- subshell k;
      do etr <- at_ x (idx + 2);
      do f <- at_ x (idx + 3);
      do ftr <- (if first then Some f else do before <- at_ x (idx - 1); Some (f - before)%Qc);
      do (rest, idx') <- records x (idx + 4) false n';
      Some ((subj, subk, (etr * EV_PER_MEV)%Qc, ftr) :: rest, idx')
  end.
(** photon.py:242-262, from subshell [i] on. *)
Fixpoint transitions (a : ace) (i : Z) (shells : list string) (idx : Z) (d : list (string * list row)) : option (list (string * list row)) :=
  match shells with
  | [] => Some d
  | s :: r =>
      do n <- int_at (xss a) (jxs a 15 + i);
      if 0 <? n then
        do (rows, idx') <- records (xss a) idx true (Z.to_nat n);
        transitions a (i + 1) r idx' (Sab_Model.set_at s rows d)
      else transitions a (i + 1) r idx d
  end.
(** photon.py:183-206: negative values are refused. *)
Definition accepted (l : list (string * Qc)) : bool := forallb (fun e => qleb 0%Qc (snd e)) l.
(** photon.py:209-265. *)
Definition relaxation_from_ace (a : ace) : option relaxation :=
  let n := nxs a 7 in
  do shells <- all_some (map (fun v => shell_of (int v)) (slice (xss a) (jxs a 11) (jxs a 11 + n)));
  let electrons := fill (combine shells (slice (xss a) (jxs a 12) (jxs a 12 + n))) in
  let binding := fill (combine shells (mega (slice (xss a) (jxs a 13) (jxs a 13 + n)))) in
  do ts <- transitions a 0 shells (jxs a 18) [];
  if accepted binding && accepted electrons then Some (mkRelaxation binding electrons ts) else None.

(** ** Reactions *)
(** photon.py:814-819; the binding energy (photon.py:519) only of subshells. *)
Record prx := mkPrx { p_mt : Z; p_xs : fn; p_factor : option fn; p_binding : option Qc }.
Section Exp.
Context (exp : Qc -> Qc).
(** photon.py:890-892 and 500-502. *)
Definition grid (a : ace) : list Qc := mega (map exp (slice (xss a) (jxs a 1) (jxs a 1 + nxs a 3))).
(** photon.py:910-913, 511-514: logarithms, but zeros are zeros. *)
Definition values (a : ace) (idx : Z) : fn :=
  mkFn (grid a) (map (fun v => if qeqb v 0%Qc then v else exp v) (slice (xss a) idx (idx + nxs a 3))) [nxs a 3] [5].
(** photon.py:895-908. *)
Definition block (mt : Z) : option Z :=
  if mt =? 502 then Some 2 else if mt =? 504 then Some 1 else if mt =? 515 then Some 4 else if mt =? 522 then Some 3 else None.
(** photon.py:924-930, 942-945: in hundredths and thousandths. *)
Definition coherent_grid : list Qc := map (fun z => qc z 100)
  [0; 1; 2; 3; 4; 5; 6; 8; 10; 12; 15; 18; 20; 25; 30; 35; 40; 45; 50; 55;
   60; 70; 80; 90; 100; 110; 120; 130; 140; 150; 160; 170; 180; 190; 200; 220; 240; 260; 280; 300; 320; 340;
   360; 380; 400; 420; 440; 460; 480; 500; 520; 540; 560; 580; 600].
Definition incoherent_grid : list Qc := map (fun z => qc z 1000)
  [0; 5; 10; 50; 100; 150; 200; 300; 400; 500; 600; 700; 800; 900; 1000; 1500; 2000; 3000; 4000; 5000; 8000].
(** photon.py:916-947. *)
Definition factor (a : ace) (mt : Z) : option fn :=
  let new_format := 0 <? nxs a 6 in
  if mt =? 502 then
    let idx := jxs a 3 in
    let '(n, x, idx) := if new_format then let n := (jxs a 4 - jxs a 3) / 3 in (n, slice (xss a) idx (idx + n), idx + n)
                        else (Z.of_nat (List.length coherent_grid), coherent_grid, idx) in
    Some (linear x (slice (xss a) (idx + n) (idx + 2 * n)))
  else if mt =? 504 then
    let idx := jxs a 2 in
    let '(n, x, idx) := if new_format then let n := (jxs a 3 - jxs a 2) / 2 in (n, slice (xss a) idx (idx + n), idx + n)
                        else (Z.of_nat (List.length incoherent_grid), incoherent_grid, idx) in
    Some (linear x (slice (xss a) idx (idx + n)))
  else None.
(** photon.py:867-949. *)
Definition reaction_from_ace (a : ace) (mt : Z) : option prx :=
  do k <- block mt;
  Some (mkPrx mt (values a (jxs a 1 + k * nxs a 3)) (factor a mt) None).

(** ** All of a table *)
(** photon.py:457-485. *)
Record compton := mkCompton { c_electrons : list Qc; c_binding : list Qc; c_profiles : list fn }.
(** photon.py:468-483: one profile. *)
Definition profile (a : ace) (k : Z) : option fn :=
  do loca <- int_at (xss a) (jxs a 9 + k);
  do jj <- int_at (xss a) (jxs a 10 + loca - 1);
  do m <- int_at (xss a) (jxs a 10 + loca);
  let idx := jxs a 10 + loca + 1 in
  Some (mkFn (slice (xss a) idx (idx + m)) (slice (xss a) (idx + m) (idx + 2 * m)) [m] [jj]).
(** photon.py:455-485. *)
Definition compton_from_ace (a : ace) : option (option compton) :=
  let n := nxs a 5 in
  if n =? 0 then Some None
  else
    do js <- all_some (map (profile a) (range n));
    Some (Some (mkCompton (slice (xss a) (jxs a 6) (jxs a 6 + n)) (mega (slice (xss a) (jxs a 7) (jxs a 7 + n))) js)).
(** photon.py:379-385. *)
Record photon := mkPhoton { ph_reactions : list (Z * prx); ph_compton : option compton; ph_relaxation : option relaxation }.
(** photon.py:505-520: the cross sections of subshells, [idx] being the place of the next; [None]: KeyError. *)
Fixpoint subshells (a : ace) (r : relaxation) (ds : list Z) (idx : Z) (d : list (Z * prx)) : option (list (Z * prx)) :=
  match ds with
  | [] => Some d
  | i :: ds' =>
      do s <- shell_of i;
      do e <- look s (r_binding r);
      subshells a r ds' (idx + nxs a 3) (assign (533 + i) (mkPrx (533 + i) (values a idx) None (Some e)) d)
  end.
(** photon.py:449-521. *)
Definition from_ace (a : ace) : option photon :=
  do rs <- all_some (map (fun mt => option_map (pair mt) (reaction_from_ace a mt)) [502; 504; 515; 522]);
  do c <- compton_from_ace a;
  if 0 <? nxs a 7 then
    do r <- relaxation_from_ace a;
    do rs <- subshells a r (map int (slice (xss a) (jxs a 11) (jxs a 11 + nxs a 7))) (jxs a 16) rs;
    Some (mkPhoton rs c (Some r))
  else Some (mkPhoton rs c None).
End Exp.
