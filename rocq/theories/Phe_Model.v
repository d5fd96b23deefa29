(** Photon data from ENDF files: data/photon.py.
    Source: /repo/ASAPy/data/photon.py:267-327 (AtomicRelaxation.from_endf), 522-551
            (IncidentPhoton.from_endf, its reactions and relaxation), 951-1000
            (PhotonReaction.from_endf).
    Simplifications: those of Atom_Model; an evaluation is its directory and its sections
    by file and section number ([None]: not there), opening files apart (C36, C37); Compton
    profiles, stopping powers and bremsstrahlung, which come from files of the package, are
    left out. *)
From Coq Require Import ZArith QArith Qcanon List Bool String.
From Verif Require Import Num Text Endf_Model Neut_Model Hdf_Model Atom_Model.
From Verif Require Sab_Model.
Import ListNotations.
Local Open Scope list_scope.
Local Open Scope Z_scope.
Local Notation "'do' x <- e ; f" := (match e with Some x => f | None => None end) (at level 200, x pattern, e at level 100, f at level 200).

(** [ev.section], endf.py:318-344. *)
Definition sections := Z -> Z -> option file.

(** ** Atomic relaxation *)
(** photon.py:311-318: the rows from number [j] on. *)
Fixpoint rows_from (items : list Qc) (j : Z) (n : nat) : option (list row) :=
  match n with
  | O => Some []
  | S n' =>
      do a <- int_at items (6 * (j + 1));
      do subj <- subshell a;
      do b <- int_at items (6 * (j + 1) + 1);
      do subk <- subshell b;
      do etr <- at_ items (6 * (j + 1) + 2);
      do ftr <- at_ items (6 * (j + 1) + 3);
      do rest <- rows_from items (j + 1) n';
      Some ((subj, subk, etr, ftr) :: rest)
  end.
(** photon.py:302-322: [n] more subshells. *)
Fixpoint subs_from (n : nat) (f : file) (r : relaxation) : option relaxation :=
  match n with
  | O => Some r
  | S n' =>
      do (params, items, f') <- get_list_record f;
      do d <- c1 params;
      do subi <- shell_of (int d);
      do e <- at_ items 0;
      do k <- at_ items 1;
      do ts <- (if 0 <? n2 params then
                  do rows <- rows_from items 0 (Z.to_nat (n2 params));
                  Some (Sab_Model.set_at subi rows (r_transitions r))
                else Some (r_transitions r));
      subs_from n' f' (mkRelaxation (Sab_Model.set_at subi e (r_binding r)) (Sab_Model.set_at subi k (r_electrons r)) ts)
  end.
(** photon.py:284-325; the checks of photon.py:183-206. *)
Definition relaxation_from_endf (ev : sections) : option relaxation :=
  do f <- ev 28 533;
  do (_, _, _, _, n, _, f') <- get_head_record f;
  do r <- subs_from (Z.to_nat n) f' (mkRelaxation [] [] []);
  if accepted (r_binding r) && accepted (r_electrons r) then Some r else None.

(** ** Reactions *)
(** photon.py:814-819, 981-984. *)
Record erx := mkErx { e_mt : Z; e_xs : option fn; e_factor : option fn; e_real : option fn; e_imag : option fn; e_binding : option Qc; e_yield : option Qc }.
(** photon.py:976-978, 988-990, 995-997, 1000-1002: two numbers and a table, if there is the section. *)
Definition table_in (s : option file) : option (option (Qc * Qc * fn)) :=
  match s with
  | None => Some None
  | Some f =>
      do (_, _, _, _, _, _, f') <- get_head_record f;
      do (a, b, _, _, rg, ps, _) <- get_tab1_record f';
      Some (Some (a, b, mkFn (map fst ps) (map snd ps) (map fst rg) (map snd rg)))
  end.
(** photon.py:951-1004. *)
Definition reaction_from_endf (ev : sections) (mt : Z) : option erx :=
  do xs <- table_in (ev 23 mt);
  do ff <- table_in (ev 27 mt);
  do re <- (if mt =? 502 then table_in (ev 27 506) else Some None);
  do im <- (if mt =? 502 then table_in (ev 27 505) else Some None);
  Some (mkErx mt (option_map snd xs) (option_map snd ff) (option_map snd re) (option_map snd im)
    (if (534 <=? mt) && (mt <=? 599) then option_map (fun t => fst (fst t)) xs else None)
    (if (534 <=? mt) && (mt <=? 572) then option_map (fun t => snd (fst t)) xs else None)).
(** photon.py:545-548, over the directory. *)
Fixpoint reactions_from (ev : sections) (dir : list (Z * Z)) (d : list (Z * erx)) : option (list (Z * erx)) :=
  match dir with
  | [] => Some d
  | (mf, mt) :: r => if mf =? 23 then do x <- reaction_from_endf ev mt; reactions_from ev r (assign mt x d) else reactions_from ev r d
  end.
(** photon.py:542-552; [rel]: the evaluation of the relaxation, if any. *)
Definition from_endf (ev : sections) (dir : list (Z * Z)) (rel : option sections) : option (list (Z * erx) * option relaxation) :=
  do rs <- reactions_from ev dir [];
  match rel with
  | None => Some (rs, None)
  | Some e => do r <- relaxation_from_endf e; Some (rs, Some r)
  end.
