(** Adding a temperature. *)
From Coq Require Import ZArith QArith Qcanon List Bool String.
From Verif Require Import Num Neut_Model Hdf_Model Nuc_Model Nuc_Spec.
Import ListNotations.
Local Open Scope string_scope.
Local Open Scope list_scope.
Local Open Scope Z_scope.

(** Data of one temperature. *)
Definition at_one (q : Qc) (data : nuclide) : Prop :=
  d_kts data = [q] /\ look (kelvin q) (d_energy data) <> None /\ NoDup (map fst (d_rx data)) /\ forall mt r, In (mt, r) (d_rx data) -> look (kelvin q) (x_xs r) <> None.
(** A reaction, with what [data] has of it at [t], if anything. *)
Definition more_rx (t : string) (mt : Z) (data : nuclide) (r r' : nrx) : Prop :=
  x_mt r' = x_mt r /\ x_q r' = x_q r /\ x_cm r' = x_cm r /\ x_redundant r' = x_redundant r /\ x_products r' = x_products r /\ x_derived r' = x_derived r /\
  (forall k, k <> t -> look k (x_xs r') = look k (x_xs r)) /\
  (forall s, In (mt, s) (d_rx data) -> look t (x_xs r') = look t (x_xs s)) /\
  ((forall s, ~ In (mt, s) (d_rx data)) -> r' = r).
(** Nothing but the temperature is added. *)
Definition with_temperature (t : string) (self data d : nuclide) : Prop :=
  d_endf d = d_endf self /\ d_name d = d_name self /\ d_z d = d_z self /\ d_a d = d_a self /\ d_m d = d_m self /\ d_awr d = d_awr self /\
  d_kts d = d_kts self ++ d_kts data /\
  look t (d_energy d) = look t (d_energy data) /\ (forall k, k <> t -> look k (d_energy d) = look k (d_energy self)) /\
  Forall2 (fun e e' => fst e' = fst e /\ more_rx t (fst e) data (snd e) (snd e')) (d_rx self) (d_rx d) /\
  (look t (d_urr data) <> None -> look t (d_urr d) = look t (d_urr data)) /\ (look t (d_urr data) = None -> d_urr d = d_urr self) /\ (forall k, k <> t -> look k (d_urr d) = look k (d_urr self)).
(** What [d] has at [t] is what [data] has. *)
Definition same_at (t : string) (data d : nuclide) : Prop :=
  look t (d_energy d) = look t (d_energy data) /\
  forall mt r s, In (mt, r) (d_rx d) -> In (mt, s) (d_rx data) -> look t (x_xs r) = look t (x_xs s).
(** Everything that goes into the file is in [data]. *)
Definition covers (self data : nuclide) : Prop := forall mt r, In (mt, r) (d_rx self) -> written r -> exists s, In (mt, s) (d_rx data) /\ written s.
