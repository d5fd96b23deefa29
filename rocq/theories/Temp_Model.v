(** Adding the data of another temperature to a nuclide: data/neutron.py.
    What [IncidentNeutron.from_ace] makes of the table is an argument; warnings are left out. *)
From Coq Require Import ZArith List Bool String.
From Verif Require Import Num Neut_Model Hdf_Model Nuc_Model.
From Verif Require Sab_Model.
Import ListNotations.
Local Open Scope string_scope.
Local Open Scope list_scope.
Local Open Scope Z_scope.
Local Notation "'do' x <- e ; f" := (match e with Some x => f | None => None end) (at level 200, x pattern, e at level 100, f at level 200).

(** [self[mt].xs[strT] = x]: neutron.py:275. *)
Definition put_xs (t : string) (x : xsec) (r : nrx) : nrx :=
  mkNrx (x_mt r) (x_q r) (x_cm r) (x_redundant r) (Sab_Model.set_at t x (x_xs r)) (x_products r) (x_derived r).
(** neutron.py:273-278: one reaction of the data; [None]: KeyError. *)
Definition take_xs (t : string) (rx : list (Z * nrx)) (e : Z * nrx) : option (list (Z * nrx)) :=
  match reaction_at rx (fst e) with
  | Some r => do x <- look t (x_xs (snd e)); Some (assign (fst e) (put_xs t x r) rx)
  | None => Some rx
  end.
(** neutron.py:257-282, [data] being what was read. *)
Definition add_temperature (self data : nuclide) : option nuclide :=
  do t <- hd_error (temperatures data);
  if Sab_Model.mem t (temperatures self) then Some self
  else if negb (String.eqb (d_name data) (d_name self)) then None
  else
    do es <- look t (d_energy data);
    do rx <- loop (take_xs t) (d_rx data) (d_rx self);
    Some (mkNuclide (d_endf self) (d_name self) (d_z self) (d_a self) (d_m self) (d_awr self) (d_kts self ++ d_kts data)
            (Sab_Model.set_at t es (d_energy self)) rx (Sab_Model.take_over t (d_urr data) (d_urr self))).
