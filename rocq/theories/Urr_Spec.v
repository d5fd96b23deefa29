(** Probability tables of the unresolved range in a table in ACE form. *)
From Coq Require Import ZArith QArith Qcanon List Bool Arith.
From Verif Require Import Num Neut_Model Neut_Spec Nubar_Spec.
Import ListNotations.
Local Open Scope Z_scope.

(** Tables at some energies (MeV), with [bands] bands: [entry i k j] is quantity [k] (0:
    cumulative probability, 1: total, 2: elastic, 3: fission, 4: capture, 5: heating) of band
    [j] at energy [i]. *)
Record ladder := mkLadder { ld_energies : list Qc; ld_bands : nat; ld_entry : nat -> nat -> nat -> Qc;
  ld_interp : Z; ld_inelastic : Z; ld_absorption : Z; ld_factors : Z }.
(** Block UNR: band runs fastest, then quantity, then energy. *)
Definition ladder_words (l : ladder) : list Qc :=
  [qz (Z.of_nat (length (ld_energies l))); qz (Z.of_nat (ld_bands l)); qz (ld_interp l); qz (ld_inelastic l); qz (ld_absorption l); qz (ld_factors l)] ++
  ld_energies l ++
  concat (map (fun i => concat (map (fun k => map (ld_entry l i k) (seq 0 (ld_bands l))) (seq 0 6))) (seq 0 (length (ld_energies l)))).
(** The block is in the table. *)
Definition has_ladder (a : ace) (c : content) (l : ladder) : Prop := jxs a 23 <> 0 /\ kept a c (jxs a 23) (ladder_words l).

(** Entry of the tables read. *)
Definition read_entry (u : urr) (i k j : nat) : option Qc :=
  match nth_error (u_table u) i with
  | Some q => match nth_error q k with Some b => nth_error b j | None => None end
  | None => None
  end.
(** The tables read are those of [l]: heating in eV, the rest as it is, and nothing else. *)
Definition ladder_read (l : ladder) (u : urr) : Prop :=
  u_energy u = map (fun e => e * qz 1000000)%Qc (ld_energies l) /\
  (forall i k j, read_entry u i k j = if (i <? length (ld_energies l))%nat && (k <? 6)%nat && (j <? ld_bands l)%nat
     then Some (if (k =? 5)%nat then ld_entry l i k j * qz 1000000 else ld_entry l i k j)%Qc else None) /\
  u_interp u = ld_interp l /\ u_inelastic u = ld_inelastic l /\ u_absorption u = ld_absorption l /\ (u_smooth u = true <-> ld_factors l = 1).
