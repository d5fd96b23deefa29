(** What files of photon data say. *)
From Coq Require Import ZArith QArith Qcanon List Bool String.
From Verif Require Import Num Text Dec Endf_Model Endf_Spec Neut_Model Hdf_Model Atom_Model Atom_Spec Phe_Model.
From Verif Require Dcy_Spec.
Import ListNotations.
Local Open Scope list_scope.
Local Open Scope Z_scope.

(** ** Atomic relaxation, ENDF-102, 28 *)
(** A transition: secondary and tertiary subshell, energy (eV), its probability, two numbers without meaning. *)
Record etrans := mkEtrans { x_second : Z; x_third : Z; x_energy : Qc; x_probability : Qc; x_pad : Qc * Qc }.
(** A subshell: number, binding energy (eV), electrons, four numbers without meaning. *)
Record esub := mkEsub { u_number : Z; u_binding : Qc; u_electrons : Qc; u_pad : Qc * Qc * Qc * Qc; u_transitions : list etrans }.
Definition six (t : etrans) : list Qc := [qz (x_second t); qz (x_third t); x_energy t; x_probability t; fst (x_pad t); snd (x_pad t)].
Definition items (u : esub) : list Qc :=
  let '(a, b, c, d) := u_pad u in [u_binding u; u_electrons u; a; b; c; d] ++ flat_map six (u_transitions u).
Definition sub_text (u : esub) (ls : list text) : Prop := exists b i j, Dcy_Spec.list_at (qz (u_number u)) b i j (size (u_transitions u)) (items u) ls.
Definition relax_text (us : list esub) (ls : list text) : Prop :=
  exists h za awr i j n parts rest, ls = h :: concat parts ++ rest /\ control_line h za awr i j (size us) n /\ Forall2 sub_text us parts.
Definition esane (us : list esub) : Prop :=
  NoDup (map u_number us) /\
  forall u, In u us -> (exists n, named (u_number u) n) /\ (0 <= u_binding u)%Qc /\ (0 <= u_electrons u)%Qc /\
    forall t, In t (u_transitions u) -> (exists n, part (x_second t) n) /\ exists n, part (x_third t) n.
(** A row for a transition, as it is in the file. *)
Definition as_is (t : etrans) (r : row) : Prop :=
  exists j k, r = (j, k, x_energy t, x_probability t) /\ part (x_second t) j /\ part (x_third t) k.
Definition transits (d : list (string * list row)) (u : esub) (n : string) : Prop :=
  match u_transitions u with [] => look n d = None | _ => exists rows, look n d = Some rows /\ Forall2 as_is (u_transitions u) rows end.

(** ** The same atom in both formats *)
(** Transitions, the probabilities being added up in the ACE table. *)
Inductive adds (before : Qc) : list etrans -> list transition -> Prop :=
| adds_nil : adds before [] []
| adds_cons x xs t ts : t_second t = x_second x -> t_third t = x_third x -> x_energy x = ev (t_energy t) -> t_cumulative t = (before + x_probability x)%Qc ->
    adds (t_cumulative t) xs ts -> adds before (x :: xs) (t :: ts).
Definition same (u : esub) (s : sub) : Prop :=
  s_number s = u_number u /\ u_binding u = ev (s_binding s) /\ s_electrons s = u_electrons u /\ adds 0%Qc (u_transitions u) (s_transitions s).

(** ** Tables *)
(** A section with a head and a TAB1 record: two numbers and a table. *)
Definition table_text (a b : Qc) (t : fn) (ls : list text) : Prop :=
  exists h za awr i j k n l i' j' lr lp rest, ls = h :: l :: lr ++ lp ++ rest /\ control_line h za awr i j k n /\
    control_line l a b i' j' (Z.of_nat (List.length (fbp t))) (Z.of_nat (List.length (fx t))) /\
    List.length (fint t) = List.length (fbp t) /\ List.length (fy t) = List.length (fx t) /\
    Endf_Spec.rows (pair_field integer_field) 3 (combine (fbp t) (fint t)) lr /\ Endf_Spec.rows (pair_field number_field) 3 (combine (fx t) (fy t)) lp.
(** What an evaluation has in a section. *)
Definition has (s : option file) (o : option (Qc * Qc * fn)) : Prop :=
  match o with None => s = None | Some (a, b, t) => exists ls, s = Some ls /\ table_text a b t ls end.
