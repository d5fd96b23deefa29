(** Property theorems C01-C05, C07: the ACE editor. *)
From Verif Require Import Num Chi_Model AceEdit_Model AceEdit_Spec AceEdit_Proofs AceEdit2_Proofs
  AceRead_Proofs AceEdit_Examples.
From Coq Require Import Permutation.
Local Open Scope Z_scope.

(** C01: after any history and a final pass, a redundant reaction with an edited
    constituent holds, at each of its energies, its evaluated reading plus the
    total change of its constituents. *)
Theorem C01_redundant_balanced : forall t h sm,
  wf_table t -> In sm (map fst (reactions t)) ->
  (exists m, part_of sm m /\ In m (map fst (reactions t)) /\ In m (adjusted (after_pass t h))) ->
  exists es ys,
    get_energy (after_pass t h) sm = Some es /\
    get_sigma (after_pass t h) sm None false = Some ys /\
    ys = map (fun e => reading (after_pass t h) true sm e
                       + qsum (map (change (after_pass t h) e) (constituents t sm)))%Qc es.
Proof. exact redundant_balanced. Qed.
Print Assumptions C01_redundant_balanced.

(** C01, consequence: where the evaluated data satisfy the sum, so does the result. *)
Theorem C01_balance_preserved : forall t h sm,
  wf_table t -> In sm (map fst (reactions t)) ->
  (exists m, part_of sm m /\ In m (map fst (reactions t)) /\ In m (adjusted (after_pass t h))) ->
  exists es ys,
    get_energy (after_pass t h) sm = Some es /\
    get_sigma (after_pass t h) sm None false = Some ys /\ length ys = length es /\
    forall i, (i < length es)%nat ->
      reading (after_pass t h) true sm (nth i es 0%Qc)
        = qsum (map (fun m => reading (after_pass t h) true m (nth i es 0%Qc)) (constituents t sm)) ->
      nth i ys 0%Qc
        = qsum (map (fun m => reading (after_pass t h) false m (nth i es 0%Qc)) (constituents t sm)).
Proof. exact balance_preserved. Qed.
Print Assumptions C01_balance_preserved.

(** C01, on grids with no interior point within the reading tolerance of an end
    point: the stored value is the tabulated evaluated value plus the change. *)
Theorem C01_redundant_balanced_grid : forall t h sm r0,
  wf_table t -> lookup sm (reactions t) = Some r0 ->
  increasing (tx r0) -> ends_separated (tx r0) ->
  (exists m, part_of sm m /\ In m (map fst (reactions t)) /\ In m (adjusted (after_pass t h))) ->
  exists ys, get_sigma (after_pass t h) sm None false = Some ys /\ length ys = length (tx r0) /\
    forall i, (i < length (tx r0))%nat ->
      nth i ys 0%Qc = (nth i (ty r0) 0
        + qsum (map (change (after_pass t h) (nth i (tx r0) 0)) (constituents t sm)))%Qc.
Proof. exact redundant_balanced_grid. Qed.
Print Assumptions C01_redundant_balanced_grid.

(** Without that separation the claim "exactly its evaluated (tabulated) value
    plus the change" is false: an edit that writes back the evaluated values
    changes MT 4. *)
Theorem C01_tabulated_value_refuted : exists t h,
  wf_table t /\
  get_sigma (run (open_editor t) h) 51 None false = get_sigma (open_editor t) 51 None false /\
  get_sigma (after_pass t h) 4 None false <> get_sigma (open_editor t) 4 None false.
Proof. exact (ex_intro _ close_table (ex_intro _ close_hist identity_edit_changes_sum)). Qed.
Print Assumptions C01_tabulated_value_refuted.

(** The pass itself never raises on a reachable editor. *)
Theorem C01_pass_never_raises : forall t h, wf_table t ->
  snd (apply_sum_rules (run (open_editor t) h)) = true.
Proof. exact pass_never_raises. Qed.
Print Assumptions C01_pass_never_raises.

Example C01_hypotheses_met : wf_table ex_table /\
  (forall sm, sm = 4 \/ sm = 1 -> In sm (map fst (reactions ex_table)) /\
     exists m, part_of sm m /\ In m (map fst (reactions ex_table)) /\
               In m (adjusted (after_pass ex_table ex_hist))) /\
  (forall e, In e (ql [2; 4; 8]) ->
     reading (after_pass ex_table ex_hist) true 4 e
     = qsum (map (fun m => reading (after_pass ex_table ex_hist) true m e) (constituents ex_table 4))) /\
  increasing (ql [2; 4; 8]) /\ ends_separated (ql [2; 4; 8]) /\
  option_map (map this) (get_sigma (after_pass ex_table ex_hist) 4 None false)
    = Some (map this (ql [4; 12; 23])).
Proof.
  exact (conj ex_wf (conj ex_balance_hyp (conj ex_balance_premise
        (conj ex_increasing (conj ex_separated ex_value4))))).
Qed.

(** C02: the second pass returns the very same editor (table, adjusted set,
    recorded originals). *)
Theorem C02_second_pass_noop : forall t h, wf_table t ->
  apply_sum_rules (after_pass t h) = (after_pass t h, true).
Proof. exact second_pass_noop. Qed.
Print Assumptions C02_second_pass_noop.
(* hypotheses met: C01_hypotheses_met (ex_wf); the first pass does change the
   state there (C01_hypotheses_met, last conjunct). *)

(** C03: histories with the same edits (distinct MTs) in any order, with passes
    anywhere, end in the same table after a final pass. *)
Theorem C03_edit_order_irrelevant : forall t h1 h2,
  wf_table t -> NoDup (map fst (edits h1)) -> Permutation (edits h1) (edits h2) ->
  cur (after_pass t h1) = cur (after_pass t h2) /\
  (forall m, In m (map fst (reactions t)) ->
     (In m (adjusted (after_pass t h1)) <-> In m (adjusted (after_pass t h2)))).
Proof. exact edit_order_irrelevant. Qed.
Print Assumptions C03_edit_order_irrelevant.

Example C03_hypotheses_met : wf_table ex_table /\ NoDup (map fst (edits ex_hist)) /\
  Permutation (edits ex_hist) (edits ex_hist2).
Proof. exact (conj ex_wf ex_nodup). Qed.

(** C04: grids never change, *)
Theorem C04_grids_unchanged : forall t h m, wf_table t ->
  get_energy (run (open_editor t) h) m = get_energy (open_editor t) m.
Proof. exact all_grids_unchanged. Qed.
Print Assumptions C04_grids_unchanged.

(** the unadjusted view is always the file, *)
Theorem C04_unadjusted_view : forall t h m at_e, wf_table t ->
  get_sigma (run (open_editor t) h) m at_e true = get_sigma (open_editor t) m at_e true.
Proof. exact unadjusted_view. Qed.
Print Assumptions C04_unadjusted_view.

Theorem C04_unadjusted_view_chi : forall t h, wf_table t ->
  get_sigma_chi (run (open_editor t) h) true = get_sigma_chi (open_editor t) true.
Proof. exact unadjusted_view_chi. Qed.
Print Assumptions C04_unadjusted_view_chi.

(** and an untouched reaction keeps its values. *)
Theorem C04_untouched_keeps : forall t h m, wf_table t -> ~ touched t h m ->
  (forall at_e, get_sigma (run (open_editor t) h) m at_e false = get_sigma (open_editor t) m at_e false) /\
  (m = 1018 -> get_sigma_chi (run (open_editor t) h) false = get_sigma_chi (open_editor t) false).
Proof. exact untouched_keeps. Qed.
Print Assumptions C04_untouched_keeps.

Example C04_hypotheses_met : wf_table ex_table /\ ~ touched ex_table ex_hist 2.
Proof. exact (conj ex_wf ex_untouched). Qed.

(** C05: an edit of a cross section or nu-bar is rejected without any effect
    unless the MT has energies and the lengths agree ... *)
Theorem C05_rejects : forall s m ys,
  m <> 1018 ->
  (forall es, get_energy s m = Some es -> length ys <> length es) ->
  set_sigma s m (VFlat ys) = (s, false).
Proof. exact set_sigma_rejects. Qed.
Print Assumptions C05_rejects.

(** ... and otherwise succeeds, reads back, records the original once and
    touches nothing else. *)
Theorem C05_accepts : forall s m ys es,
  m <> 1018 -> get_energy s m = Some es -> length ys = length es ->
  let s' := fst (set_sigma s m (VFlat ys)) in
  snd (set_sigma s m (VFlat ys)) = true /\
  get_sigma s' m None false = Some ys /\ In m (adjusted s') /\
  (forall m', m' <> m -> (In m' (adjusted s') <-> In m' (adjusted s))) /\
  (forall m' at_e, m' <> m -> get_sigma s' m' at_e false = get_sigma s m' at_e false) /\
  (forall m' at_e, get_sigma s' m' at_e true = get_sigma s m' at_e true) /\
  (forall m', get_energy s' m' = get_energy s m') /\
  (forall u, get_sigma_chi s' u = get_sigma_chi s u) /\
  (forall m', m' <> m -> lookup m' (original_sigma s') = lookup m' (original_sigma s)) /\
  (lookup m (original_sigma s') =
     match lookup m (original_sigma s) with
     | Some v => Some v
     | None => option_map VFlat (get_sigma s m None false)
     end).
Proof. exact set_sigma_accepts. Qed.
Print Assumptions C05_accepts.

(** In every reachable editor the recorded original is the evaluated data. *)
Theorem C05_recorded_is_evaluated : forall t h m v, wf_table t ->
  lookup m (original_sigma (run (open_editor t) h)) = Some v -> evaluated t m = Some v.
Proof. exact recorded_is_evaluated. Qed.
Print Assumptions C05_recorded_is_evaluated.

(** For the fission spectrum the "raises and leaves the editor unchanged" half is
    false. *)
Theorem C05_chi_atomic_refuted : exists t pdfs, wf_table t /\
  snd (set_sigma (open_editor t) 1018 (VChi pdfs)) = false /\
  get_sigma_chi (fst (set_sigma (open_editor t) 1018 (VChi pdfs))) false
    <> get_sigma_chi (open_editor t) false.
Proof. exact chi_edit_not_atomic. Qed.
Print Assumptions C05_chi_atomic_refuted.

Example C05_hypotheses_met :
  (forall es, get_energy (open_editor ex_table) 777 = Some es -> length (ql [1]) <> length es) /\
  get_energy (open_editor ex_table) 452 = Some (ql [1; 8]) /\
  lookup 51 (original_sigma (run (open_editor ex_table) ex_hist)) = Some (VFlat (ql [3; 7; 15])).
Proof. repeat split; try reflexivity. intros es H. discriminate H. Qed.

(** C07 is false: (n,p) edited, absorption 101 stays although total follows. *)
Theorem C07_absorption_follows_refuted : exists t h,
  wf_table t /\
  reading (after_pass t h) false 103 (qz 1) <> reading (after_pass t h) true 103 (qz 1) /\
  reading (after_pass t h) false 1 (qz 1) <> reading (after_pass t h) true 1 (qz 1) /\
  forall e, reading (after_pass t h) false 101 e = reading (after_pass t h) true 101 e.
Proof. exact (ex_intro _ np_table (ex_intro _ np_hist absorption_not_following)). Qed.
Print Assumptions C07_absorption_follows_refuted.

(** ... and it fails for every file: edits of 103-107 and 18 only never reach
    101 or 27. *)
Theorem C07_absorption_never_follows : forall t h at_e, wf_table t ->
  (forall m v, In (SetSigma m v) h -> 103 <= m <= 107 \/ m = 18) ->
  forall sm, sm = 101 \/ sm = 27 ->
  get_sigma (run (open_editor t) h) sm at_e false = get_sigma (open_editor t) sm at_e false.
Proof. exact absorption_never_follows. Qed.
Print Assumptions C07_absorption_never_follows.

Example C07_hypotheses_met : wf_table np_table /\
  forall m v, In (SetSigma m v) (np_hist ++ [SumRules]) -> 103 <= m <= 107 \/ m = 18.
Proof. split; [exact np_wf|]. intros m v [H|[H|[]]]; inversion H; subst; lia. Qed.
