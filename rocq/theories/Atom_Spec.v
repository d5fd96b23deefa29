(** What a table of photon data says. *)
From Coq Require Import ZArith QArith Qcanon List Bool String Ascii.
From Verif Require Import Num Neut_Model Neut_Spec Hdf_Model Atom_Model.
Import ListNotations.
Local Open Scope string_scope.
Local Open Scope list_scope.
Local Open Scope Z_scope.

(** ** Subshells *)
(** The shells with the number of their subshells. *)
Definition shells_sizes : list (string * nat) := [("K", 1); ("L", 3); ("M", 5); ("N", 7); ("O", 9); ("P", 11); ("Q", 3)]%nat.
Definition digit (n : nat) : string := String (ascii_of_nat (48 + n)) "".
Definition number (n : nat) : string := if (n <? 10)%nat then digit n else digit (n / 10) ++ digit (n mod 10).
(** Their names in order; a shell of one has no number. *)
Definition names : list string := flat_map (fun e => if (snd e =? 1)%nat then [fst e] else map (fun n => (fst e ++ number n)%string) (seq 1 (snd e))) shells_sizes.
(** Subshell number [d], from 1. *)
Definition named (d : Z) (s : string) : Prop := 1 <= d /\ nth_error names (Z.to_nat (d - 1)) = Some s.
(** One of the subshells of a transition; 0 is none. *)
Definition part (d : Z) (s : option string) : Prop := (d = 0 /\ s = None) \/ exists n, named d n /\ s = Some n.

(** ** Contents *)
(** A transition: secondary and tertiary subshell, energy (MeV), probability of it or one before it. *)
Record transition := mkTransition { t_second : Z; t_third : Z; t_energy : Qc; t_cumulative : Qc }.
(** A subshell: number, electrons, binding energy (MeV), transitions, logarithms of the photoelectric cross section. *)
Record sub := mkSub { s_number : Z; s_electrons : Qc; s_binding : Qc; s_transitions : list transition; s_xs : list Qc }.
(** A Compton profile: electrons and binding energy of the shell, interpolation, momenta and values. *)
Record prof := mkProf { f_electrons : Qc; f_binding : Qc; f_interpolation : Z; f_momenta : list Qc; f_values : list Qc }.
(** A table: logarithms of energies (MeV) and of cross sections, scattering functions with
    their arguments (the coherent one also integrated), profiles, subshells. *)
Record content := mkContent {
  c_energy : list Qc; c_incoherent : list Qc; c_coherent : list Qc; c_photoelectric : list Qc; c_pair : list Qc;
  c_ix : list Qc; c_iy : list Qc; c_cx : list Qc; c_cint : list Qc; c_cy : list Qc;
  c_profs : list prof; c_subs : list sub }.
Definition words (t : transition) : list Qc := [qz (t_second t); qz (t_third t); t_energy t; t_cumulative t].
Definition size {A} (l : list A) : Z := Z.of_nat (List.length l).
(** The arguments agreed for tables of the old format: [n] numbers in equal steps. *)
Definition steps (from step : Z) (n : nat) : list Z := map (fun k => from + step * Z.of_nat k) (seq 0 n).
Definition agreed_coherent : list Qc := map (fun z => qc z 100) (steps 0 1 7 ++ steps 8 2 3 ++ [15; 18] ++ steps 20 5 8 ++ steps 60 10 14 ++ steps 200 20 21).
Definition agreed_incoherent : list Qc := map (fun z => qc z 1000) ([0; 5; 10] ++ steps 50 50 3 ++ steps 200 100 8 ++ steps 1000 500 2 ++ steps 2000 1000 4 ++ [8000]).
(** The table [a] says [c]: blocks ESZG, JINC, JCOH, LNEPS to SWD, SUBSH, SPHEL, NTRANS, XPROB. *)
Record says (a : ace) (c : content) : Prop := {
  s_lengths : size (c_incoherent c) = size (c_energy c) /\ size (c_coherent c) = size (c_energy c) /\ size (c_photoelectric c) = size (c_energy c) /\ size (c_pair c) = size (c_energy c);
  s_eszg : nxs a 3 = size (c_energy c) /\ stands (xss a) (jxs a 1) (c_energy c ++ c_incoherent c ++ c_coherent c ++ c_photoelectric c ++ c_pair c);
  s_factors : size (c_iy c) = size (c_ix c) /\ size (c_cint c) = size (c_cx c) /\ size (c_cy c) = size (c_cx c);
  (** The arguments are in the table, or agreed. *)
  s_format : (0 < nxs a 6 /\ jxs a 3 = jxs a 2 + 2 * size (c_ix c) /\ stands (xss a) (jxs a 2) (c_ix c ++ c_iy c) /\ jxs a 4 = jxs a 3 + 3 * size (c_cx c) /\ stands (xss a) (jxs a 3) (c_cx c ++ c_cint c ++ c_cy c)) \/
    (nxs a 6 <= 0 /\ c_ix c = agreed_incoherent /\ stands (xss a) (jxs a 2) (c_iy c) /\ c_cx c = agreed_coherent /\ stands (xss a) (jxs a 3) (c_cint c ++ c_cy c));
  s_profs : nxs a 5 = size (c_profs c) /\ stands (xss a) (jxs a 6) (map f_electrons (c_profs c)) /\ stands (xss a) (jxs a 7) (map f_binding (c_profs c)) /\
    forall k p, nth_error (c_profs c) k = Some p -> size (f_values p) = size (f_momenta p) /\
      exists loc, stands (xss a) (jxs a 9 + Z.of_nat k) [qz loc] /\ stands (xss a) (jxs a 10 + loc - 1) (qz (f_interpolation p) :: qz (size (f_momenta p)) :: f_momenta p ++ f_values p);
  s_subs : nxs a 7 = size (c_subs c) /\
    stands (xss a) (jxs a 11) (map (fun s => qz (s_number s)) (c_subs c)) /\ stands (xss a) (jxs a 12) (map s_electrons (c_subs c)) /\ stands (xss a) (jxs a 13) (map s_binding (c_subs c)) /\
    stands (xss a) (jxs a 15) (map (fun s => qz (size (s_transitions s))) (c_subs c)) /\
    stands (xss a) (jxs a 16) (flat_map s_xs (c_subs c)) /\ stands (xss a) (jxs a 18) (flat_map (fun s => flat_map words (s_transitions s)) (c_subs c));
  s_sublengths : forall s, In s (c_subs c) -> size (s_xs s) = size (c_energy c) }.
(** Subshells are different ones there are; energies and numbers of electrons are not negative. *)
Definition sane (c : content) : Prop :=
  NoDup (map s_number (c_subs c)) /\
  forall s, In s (c_subs c) -> (exists n, named (s_number s) n) /\ (0 <= s_binding s)%Qc /\ (0 <= s_electrons s)%Qc /\
    forall t, In t (s_transitions s) -> (exists n, part (t_second t) n) /\ exists n, part (t_third t) n.

(** ** What is read *)
(** MeV to eV. *)
Definition ev (v : Qc) : Qc := (v * qz 1000000)%Qc.
(** A cross section, from the logarithms of energies and values, 0 meaning 0; logarithmic in both. *)
Definition table (exp : Qc -> Qc) (es vs : list Qc) (f : fn) : Prop :=
  fx f = map (fun e => ev (exp e)) es /\ Forall2 (fun v y => (v = 0%Qc /\ y = 0%Qc) \/ (v <> 0%Qc /\ y = exp v)) vs (fy f) /\ fbp f = [size es] /\ fint f = [5].
(** A row for each transition, with its own probability. *)
Inductive own (before : Qc) : list transition -> list row -> Prop :=
| own_nil : own before [] []
| own_cons t ts j k out : part (t_second t) j -> part (t_third t) k -> own (t_cumulative t) ts out ->
    own before (t :: ts) ((j, k, ev (t_energy t), (t_cumulative t - before)%Qc) :: out).
Definition probability (r : row) : Qc := snd r.
Definition sum (l : list Qc) : Qc := fold_right Qcplus 0%Qc l.
(** The transitions of subshell [s], called [n]; without any there is no entry. *)
Definition transited (d : list (string * list row)) (s : sub) (n : string) : Prop :=
  match s_transitions s with [] => look n d = None | _ => exists rows, look n d = Some rows /\ own 0%Qc (s_transitions s) rows end.
(** Binding energies and electrons by name, in order, and transitions. *)
Definition relaxed (c : content) (r : relaxation) (ns : list string) : Prop :=
  r_binding r = combine ns (map (fun s => ev (s_binding s)) (c_subs c)) /\ r_electrons r = combine ns (map s_electrons (c_subs c)) /\ Forall2 (transited (r_transitions r)) (c_subs c) ns.
(** Photoelectric effect of a subshell. *)
Definition of_sub (exp : Qc -> Qc) (c : content) (s : sub) (e : Z * prx) : Prop :=
  fst e = 533 + s_number s /\ p_mt (snd e) = fst e /\ table exp (c_energy c) (s_xs s) (p_xs (snd e)) /\ p_factor (snd e) = None /\ p_binding (snd e) = Some (ev (s_binding s)).
