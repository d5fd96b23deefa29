(** C47: continuous tabular energy distributions through HDF5. *)
From Coq Require Import ZArith QArith Qcanon List Bool Arith Lia.
From Verif Require Import Num Cont_Model Cont_Spec Cont_Proofs.
Import ListNotations.
Local Open Scope nat_scope.

(** What is written comes back. *)
Theorem C47_round_trip : forall es ip ds, length es = length ds -> Forall fit ds -> Forall plainly ds ->
  from_hdf5 (to_hdf5 es ip ds) = Some (es, ip, ds).
Proof. exact round_trip. Qed.
Print Assumptions C47_round_trip.
(** With any scheme and weights the points, lines and cumulative values come back. *)
Theorem C47_points : forall es ip ds, length es = length ds -> Forall fit ds ->
  exists ds', from_hdf5 (to_hdf5 es ip ds) = Some (es, ip, ds') /\ Forall2 same_points ds ds'.
Proof. exact read_points. Qed.
Print Assumptions C47_points.
(** Distributions from ACE are of that kind if the cumulative value of the last line is
    the sum of the lines, at most 1. *)
Theorem C47_ace : forall ev inttp data d, (0 < ev)%Qc -> data <> [] -> inttp mod 10 = 1 \/ inttp mod 10 = 2 -> inttp / 10 <= length data ->
  nonnegative data ->
  (0 < inttp / 10 < length data -> let ls := firstn (inttp / 10) data in lines_weight ls (qsum (map pp ls)) /\ (qsum (map pp ls) <= 1)%Qc) ->
  from_ace_one ev inttp data = Some d -> fit d /\ plainly d.
Proof. exact ace_kept. Qed.
Print Assumptions C47_ace.
Theorem C47_ace_read : forall ev inttp data, (0 < ev)%Qc -> nonnegative data -> exists d, from_ace_one ev inttp data = Some d.
Proof. exact ace_some. Qed.
Print Assumptions C47_ace_read.
(** What they hold: [ls] and [cs] are the lines and the rest of the table, [i] is the
    last digit of the first word. *)
Theorem C47_ace_values : forall ev i ls cs inttp d, (0 < ev)%Qc -> inttp = 10 * length ls + i -> i < 10 ->
  from_ace_one ev inttp (ls ++ cs) = Some d -> ace_dist ev (if i =? 1 then Histogram else LinLin) ls cs d.
Proof. exact ace_values. Qed.
Print Assumptions C47_ace_values.

Definition pt (x p c : Z) : point := (qz x, qc p 10, qc c 10).
Definition a1 := [pt 1 5 0; pt 2 5 10].
Definition a2 := [pt 3 2 2; pt 4 1 3].
Definition a3 := [pt 5 7 3; pt 6 7 10].
(** An empty distribution comes back as the one before it. *)
Theorem C47_empty_refuted : from_hdf5 (to_hdf5 [qz 1; qz 2] [(2, 2)] [Tab Histogram a1; Disc []]) = Some ([qz 1; qz 2], [(2, 2)], [Tab Histogram a1; Tab Histogram a1]).
Proof. reflexivity. Qed.
Print Assumptions C47_empty_refuted.
(** Logarithmic interpolation comes back as linear. *)
Theorem C47_scheme_refuted : from_hdf5 (to_hdf5 [qz 1] [(1, 2)] [Tab LogLog a1]) = Some ([qz 1], [(1, 2)], [Tab LinLin a1]).
Proof. reflexivity. Qed.
Print Assumptions C47_scheme_refuted.
(** Lines whose sum differs from their cumulative value (rounding in the ACE file) come
    back with other weights, and are not read at all if the latter is above 1. *)
Theorem C47_weights_refuted : exists w w' a i c, from_ace_one 1 12 [pt 3 4 3; pt 5 7 3; pt 6 7 10] = Some (Mix w a i c) /\
  from_hdf5 (to_hdf5 [qz 1] [(1, 2)] [Mix w a i c]) = Some ([qz 1], [(1, 2)], [Mix w' a i c]) /\ map this w = [2 # 5; 3 # 5]%Q /\ map this w' = [3 # 10; 7 # 10]%Q.
Proof.
  do 5 eexists. split; [vm_compute; reflexivity|]. split; [vm_compute; reflexivity|]. split; reflexivity.
Qed.
Print Assumptions C47_weights_refuted.
Theorem C47_unreadable_refuted : exists d, from_ace_one 1 12 [pt 3 10 11; pt 5 7 3; pt 6 7 10] = Some d /\ from_hdf5 (to_hdf5 [qz 1] [(1, 2)] [d]) = None.
Proof. eexists. split; [vm_compute; reflexivity | vm_compute; reflexivity]. Qed.
Print Assumptions C47_unreadable_refuted.

(** *** Hypotheses met *)
Definition demo : list dist := [Tab Histogram a1; Mix [qc 3 10; (1 - qc 3 10)%Qc] a2 LinLin a3; Disc a2; Tab LinLin a3].
Example C47_hypotheses_met : Forall fit demo /\ Forall plainly demo /\ from_hdf5 (to_hdf5 (map qz [1; 2; 3; 4]%Z) [(4, 2)] demo) = Some (map qz [1; 2; 3; 4]%Z, [(4, 2)], demo).
Proof.
  assert (F : Forall fit demo).
  { assert (N : forall l, nonneg l = true -> nonnegative l) by (intros l; apply nonneg_ok).
    repeat constructor; try discriminate; try (apply N; reflexivity). exists (qc 3 10). split; [exists (pt 4 1 3), [pt 3 2 2]; now split|]. split; discriminate. }
  assert (P : Forall plainly demo).
  { apply Forall_forall. intros d I. cbn in I. destruct I as [<-|[<-|[<-|[<-|[]]]]]; cbn.
    - now left.
    - split; [now right|]. exists (qc 3 10). split; [exists (pt 4 1 3), [pt 3 2 2]; now split | reflexivity].
    - exact I.
    - now right. }
  split; [exact F|]. split; [exact P|]. now apply round_trip.
Qed.
Example C47_ace_hypotheses_met : (exists w a c, from_ace_one 1 22 (a2 ++ a3) = Some (Mix w a LinLin c) /\ map this w = [3 # 10; 7 # 10]%Q) /\
  lines_weight a2 (qsum (map pp a2)) /\ (qsum (map pp a2) <= 1)%Qc.
Proof.
  split; [do 3 eexists; split; [vm_compute; reflexivity | reflexivity]|].
  split; [exists (pt 4 1 3), [pt 3 2 2]; split; [reflexivity | apply Qc_is_canon; reflexivity] | discriminate].
Qed.
Example C47_ace_values_hypotheses_met : (exists w a c, from_ace_one (qz 10) 22 (a2 ++ a3) = Some (Mix w a LinLin c) /\
  map (fun t => this (px t)) (a ++ c) = [30; 40; 50; 60]%Q /\ map (fun t => this (pp t)) (a ++ c) = [1 # 5; 1 # 10; 7 # 100; 7 # 100]%Q) /\
  (exists a, from_ace_one (qz 10) 21 a2 = Some (Disc a)) /\ exists c, from_ace_one (qz 10) 1 a3 = Some (Tab Histogram c).
Proof. split; [do 3 eexists; split; [vm_compute; reflexivity | split; reflexivity]|]. split; eexists; vm_compute; reflexivity. Qed.
