(** Data of a nuclide from what NJOY made: data/neutron.py:791-838 (from_njoy).
    Simplifications: running NJOY and reading its files are left out, [tables] being what
    [IncidentNeutron.from_ace] makes of the tables of the library, in order, and [pendf] the
    cross section in the section of elastic scattering of the PENDF file, or [None] where
    there is no such section; [None] is an exception; the energy release of fission
    (neutron.py:822-824) is apart (C82). *)
From Coq Require Import ZArith List Bool String.
From Verif Require Import Num Neut_Model Hdf_Model Nuc_Model Temp_Model.
From Verif Require Sab_Model.
Import ListNotations.
Local Open Scope string_scope.
Local Open Scope list_scope.
Local Open Scope Z_scope.
Local Notation "'do' x <- e ; f" := (match e with Some x => f | None => None end) (at level 200, x pattern, e at level 100, f at level 200).

(** neutron.py:815-819: the first table, then the others. *)
Definition from_tables (tables : list nuclide) : option nuclide :=
  do first <- hd_error tables;
  loop add_temperature (tl tables) first.
(** neutron.py:828-834: no section, or no elastic scattering, is KeyError. *)
Definition put_cold (xs : fn) (d : nuclide) : option nuclide :=
  do r <- reaction_at (d_rx d) 2;
  Some (mkNuclide (d_endf d) (d_name d) (d_z d) (d_a d) (d_m d) (d_awr d) (d_kts d)
          (Sab_Model.set_at "0K" (fx xs) (d_energy d)) (assign 2 (put_xs "0K" (Table xs None) r) (d_rx d)) (d_urr d)).
(** neutron.py:814-836. *)
Definition from_njoy (tables : list nuclide) (pendf : option fn) : option nuclide :=
  do d <- from_tables tables;
  match look "0K" (d_energy d) with
  | Some _ => Some d
  | None => do xs <- pendf; put_cold xs d
  end.
