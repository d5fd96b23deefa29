(** What NJOY made, in one nuclide. *)
From Coq Require Import ZArith QArith Qcanon List Bool String.
From Verif Require Import Num Neut_Model Hdf_Model Nuc_Model Nuc_Spec Temp_Spec.
Import ListNotations.
Local Open Scope string_scope.
Local Open Scope list_scope.
Local Open Scope Z_scope.

(** Tables of one nuclide, one for each of different temperatures, none of them 0 K. *)
Definition library (qs : list Qc) (tables : list nuclide) : Prop :=
  Forall2 at_one qs tables /\ NoDup (map kelvin qs) /\ ~ In "0K" (map kelvin qs) /\
  (forall x y, In x tables -> In y tables -> d_name x = d_name y).
(** Nothing is known at 0 K. *)
Definition warm (d : nuclide) : Prop := look "0K" (d_energy d) = None.
(** Only elastic scattering has got a cross section at 0 K, which is [xs]. *)
Definition cold_from (xs : fn) (first d : nuclide) : Prop :=
  look "0K" (d_energy d) = Some (fx xs) /\
  (exists r, reaction_at (d_rx d) 2 = Some r /\ look "0K" (x_xs r) = Some (Table xs None)) /\
  forall mt r, mt <> 2 -> reaction_at (d_rx d) mt = Some r -> exists s, reaction_at (d_rx first) mt = Some s /\ look "0K" (x_xs r) = look "0K" (x_xs s).
(** Everything that goes into the file is in all tables. *)
Definition complete (tables : list nuclide) : Prop :=
  forall first rest x, tables = first :: rest -> In x rest -> covers first x.
