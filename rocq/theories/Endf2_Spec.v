(** What an evaluation object must hold for a given material. *)
From Verif Require Import Num Text Endf_Model Endf_Spec.
Local Open Scope list_scope.
Local Open Scope nat_scope.

(** The stored section: its key and its text. *)
Definition kv (s : sect) : key * text := ((s_mf s, s_mt s), concat (s_lines s)).

(** The descriptive data. *)
Definition described (d : descriptive) (h : header) : Prop :=
  (1000 * atomic_number h + mass_number h = d_za d)%Z /\ (0 <= mass_number h < 1000)%Z /\ mass h = d_awr d /\
  lrp h = d_lrp d /\ (fissionable h = true <-> d_lfi d = 1%Z) /\ modification h = d_nmod d /\
  excitation_energy h = d_elis d /\ (stable h = true <-> (- (1) < d_sta d)%Qc /\ (d_sta d < 1)%Qc) /\ isomeric_state h = d_liso d /\
  state h = (if ((d_za d =? 95242) && (d_liso d =? 1))%Z then 2%Z else d_lis d) /\
  projectile_mass h = d_awi d /\ energy_max h = d_emax d /\ sublibrary h = d_nsub d /\
  (exists t, library_name (d_nlib d) t /\ libinfo h = (t, d_nver d, d_lrel d)) /\
  temperature h = d_temp d /\ (derived h = true <-> (0 < d_ldrv d)%Z) /\
  description h = d_texts d /\ reaction_list h = d_dir d.
Definition read_as (m : mater) (ev : evaluation) : Prop :=
  material ev = m_mat m /\ section ev = map kv (m_sects m) /\ described (m_desc m) (info ev).
