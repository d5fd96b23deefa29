(** C67: probability tables of the unresolved range read from a table in ACE form. *)
From Coq Require Import ZArith QArith Qcanon List Bool Arith Lia.
From Verif Require Import Num Neut_Model Neut_Spec Neut_Proofs NeutRun_Proofs Nubar_Spec Nubar_Proofs Urr_Spec Urr_Proofs.
Import ListNotations.
Local Open Scope Z_scope.

(** All entries are read at their places, heating in eV, with energies in eV and flags. *)
Theorem C67_tables : forall D A (R : readers D A) a c n x l, says a c -> apart a c -> listed_once c -> from_ace R a = Some (n, x) -> has_ladder a c l ->
  exists u, n_urr n = Some u /\ ladder_read l u.
Proof. intros D A R a c n x l S P O OK H. exact (proj2 (ladder_in R a c n x S P O OK l H)). Qed.
Print Assumptions C67_tables.
(** None are read if there are none. *)
Theorem C67_none : forall D A (R : readers D A) a c n x, says a c -> apart a c -> listed_once c -> from_ace R a = Some (n, x) -> jxs a 23 = 0 -> n_urr n = None.
Proof. intros D A R a c n x S P O OK. exact (no_ladder R a c n x S P O OK). Qed.
Print Assumptions C67_none.
(** Interpolation other than linear in both (2) or logarithmic in both (5) fails the whole
    table. *)
Theorem C67_interpolation : forall D A (R : readers D A) a c l, says a c -> apart a c -> listed_once c -> has_ladder a c l -> ld_interp l <> 2 -> ld_interp l <> 5 -> from_ace R a = None.
Proof.
  intros D A R a c l S P O H N2 N5. destruct (from_ace R a) as [(n, x)|] eqn:E; [|reflexivity]. destruct (proj1 (ladder_in R a c n x S P O E l H)); contradiction.
Qed.
Print Assumptions C67_interpolation.

(** ** A table *)
Definition ex_readers : readers unit unit := mkReaders unit unit (fun _ _ _ _ _ _ => 0%Qc) (fun _ _ _ _ => None) (fun _ => true) tt (fun _ _ _ => None) (fun _ _ => tt) (fun _ => None).
Definition ex_c : content := mkContent [qz 1; qz 2; qz 3] [qz 10; qz 20; qz 30] [qz 1; qz 3; qz 6] [qz 5; qz (-6); qz 7] [mkChannel 102 (qz 7) 0 0 [qz 1; qz 0; qz 2]].
(** Three energies, two bands; all entries different. *)
Definition ex_ladder (interp : Z) : ladder := mkLadder [qz 1; qz 2; qz 3] 2 (fun i k j => qz (Z.of_nat (100 * i + 10 * k + j))) interp 51 (-1) 1.
Definition ex_at : Z := Z.of_nat (length (xss (lay ex_c))).
Definition ex_jxs (i : nat) : Z := match i with 23%nat => ex_at | _ => jxs (lay ex_c) i end.
Definition ex_a (interp : Z) : ace := mkAce (nxs (lay ex_c)) ex_jxs (xss (lay ex_c) ++ ladder_words (ex_ladder interp)).
Lemma ex_consistent : consistent ex_c.
Proof. split; [cbn; auto|]. intros h [<-|[]]; cbn; lia. Qed.
Lemma ex_once : listed_once ex_c.
Proof. unfold listed_once. cbn. repeat constructor; cbn; lia. Qed.
Lemma ex_hj i : (i = 1 \/ 3 <= i <= 7)%nat -> ex_jxs i = jxs (lay ex_c) i.
Proof. intros H. assert (C : (i = 1 \/ i = 3 \/ i = 4 \/ i = 5 \/ i = 6 \/ i = 7)%nat) by lia. decompose [or] C; subst i; reflexivity. Qed.
Lemma ex_says z : says (ex_a z) ex_c. Proof. apply (put_says ex_c _ _ _ ex_consistent (fun _ _ => eq_refl) ex_hj). Qed.
Lemma ex_apart z : apart (ex_a z) ex_c. Proof. apply (put_apart ex_c _ _ _ ex_consistent ex_hj). Qed.
Lemma ex_has z : has_ladder (ex_a z) ex_c (ex_ladder z).
Proof.
  split; [cbn; discriminate|]. apply (put_kept ex_c _ ex_jxs _ ex_consistent ex_hj); [cbn [jxs ex_a ex_jxs]; unfold ex_at; lia|]. cbn [xss ex_a jxs ex_jxs].
  exists (xss (lay ex_c)), []. split; [now rewrite app_nil_r|reflexivity].
Qed.
Example C67_hypotheses_met : says (ex_a 5) ex_c /\ apart (ex_a 5) ex_c /\ listed_once ex_c /\ has_ladder (ex_a 5) ex_c (ex_ladder 5) /\
  exists n x u, from_ace ex_readers (ex_a 5) = Some (n, x) /\ n_urr n = Some u /\ read_entry u 1 4 1 = Some (qz 141) /\ read_entry u 1 5 0 = Some (qz 150000000) /\ u_smooth u = true.
Proof.
  split; [apply ex_says|]. split; [apply ex_apart|]. split; [apply ex_once|]. split; [apply ex_has|].
  destruct (from_ace ex_readers (ex_a 5)) as [(n, x)|] eqn:E; [|exfalso; revert E; vm_compute; discriminate].
  destruct (C67_tables _ _ _ _ _ _ _ _ (ex_says 5) (ex_apart 5) ex_once E (ex_has 5)) as (u & U & _ & RE & _ & _ & _ & Sm). exists n, x, u. split; [reflexivity|]. split; [exact U|].
  rewrite !RE. cbn [ex_ladder ld_energies ld_bands ld_entry length Nat.ltb Nat.leb andb Nat.eqb]. split; [reflexivity|]. split; [f_equal; apply Qc_is_canon; reflexivity|]. now apply Sm.
Qed.
Example C67_none_hypotheses_met : says (lay ex_c) ex_c /\ apart (lay ex_c) ex_c /\ jxs (lay ex_c) 23 = 0 /\ exists n x, from_ace ex_readers (lay ex_c) = Some (n, x).
Proof.
  split; [apply lay_says, ex_consistent|]. split; [apply lay_apart, ex_consistent|]. split; [reflexivity|].
  destruct (from_ace ex_readers (lay ex_c)) as [(n, x)|] eqn:E; [eauto|exfalso; revert E; vm_compute; discriminate].
Qed.
Example C67_interpolation_hypotheses_met : says (ex_a 3) ex_c /\ apart (ex_a 3) ex_c /\ listed_once ex_c /\ has_ladder (ex_a 3) ex_c (ex_ladder 3) /\ ld_interp (ex_ladder 3) <> 2 /\ ld_interp (ex_ladder 3) <> 5.
Proof. split; [apply ex_says|]. split; [apply ex_apart|]. split; [apply ex_once|]. split; [apply ex_has|]. split; discriminate. Qed.
