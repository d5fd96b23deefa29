(** Concrete data meeting the hypotheses of the editor theorems, and witnesses
    for the refuted claims. *)
From Verif Require Import Num Chi_Model AceEdit_Model AceEdit_Spec AceEdit_Proofs AceEdit2_Proofs AceRead_Proofs.
From Coq Require Import Permutation.
Local Open Scope Z_scope.

Definition ql (l : list Z) : list Qc := map qz l.

(** A small table: total, elastic, inelastic with two levels, capture,
    absorption, fission with nu-bar and a spectrum. *)
Definition ex_table : table :=
  {| reactions :=
       [(1,   mkTab (ql [1; 2; 4; 8]) (ql [30; 33; 40; 52]));
        (101, mkTab (ql [1; 2; 4; 8]) (ql [5; 5; 5; 5]));
        (2,   mkTab (ql [1; 2; 4; 8]) (ql [20; 20; 20; 20]));
        (18,  mkTab (ql [1; 2; 4; 8]) (ql [5; 5; 5; 5]));
        (4,   mkTab (ql [2; 4; 8]) (ql [3; 10; 22]));
        (51,  mkTab (ql [2; 4; 8]) (ql [3; 7; 15]));
        (52,  mkTab (ql [4; 8]) (ql [3; 7]));
        (102, mkTab (ql [1; 2; 4; 8]) (ql [5; 5; 5; 5]))];
     nu := Some (mkTab (ql [1; 8]) (ql [2; 3]));
     chi := Some [mkDist (ql [0; 1; 2]) [qc 1 2; qc 1 2; qc 1 2] [0%Qc; qc 1 2; 1%Qc]] |}.

Definition ex_hist : list call :=
  [SetSigma 51 (VFlat (ql [4; 9; 16])); SumRules;
   SetSigma 102 (VFlat (ql [6; 6; 7; 7]));
   SetSigma 452 (VFlat (ql [2; 4])); SetSigma 777 (VFlat []);
   SetSigma 52 (VFlat (ql [1]))].

Definition ex_hist2 : list call :=
  [SetSigma 52 (VFlat (ql [1])); SetSigma 102 (VFlat (ql [6; 6; 7; 7]));
   SetSigma 777 (VFlat []); SumRules; SumRules;
   SetSigma 452 (VFlat (ql [2; 4])); SetSigma 51 (VFlat (ql [4; 9; 16]))].

Lemma ex_wf : wf_table ex_table.
Proof.
  split; [cbn; repeat (constructor; [cbn; intuition discriminate|]); constructor|].
  intros m rx H. cbn in H.
  repeat (destruct H as [H|H]; [injection H as <- <-; cbn; repeat split; (discriminate || reflexivity)|]).
  destruct H.
Qed.

(** MT 4 and MT 1 of the example meet the hypotheses of the balance theorems. *)
Lemma ex_balance_hyp : forall sm, sm = 4 \/ sm = 1 ->
  In sm (map fst (reactions ex_table)) /\
  exists m, part_of sm m /\ In m (map fst (reactions ex_table)) /\
            In m (adjusted (after_pass ex_table ex_hist)).
Proof.
  intros sm [-> | ->]; (split; [cbn; tauto|]).
  - exists 51. split; [unfold part_of; lia|]. split; [cbn; tauto|]. apply (proj1 (mem_In _ _)). vm_compute. reflexivity.
  - exists 4. split; [unfold part_of; lia|]. split; [cbn; tauto|]. apply (proj1 (mem_In _ _)). vm_compute. reflexivity.
Qed.

(** ... and the file's MT 4 is the sum of its levels at every energy, so the
    premise of the balance statement holds too. *)
Lemma ex_balance_premise : forall e, In e (ql [2; 4; 8]) ->
  reading (after_pass ex_table ex_hist) true 4 e
  = qsum (map (fun m => reading (after_pass ex_table ex_hist) true m e) (constituents ex_table 4)).
Proof.
  intros e H. cbn in H.
  repeat (destruct H as [<-|H]; [apply Qc_is_canon; vm_compute; reflexivity|]). destruct H.
Qed.

(** The value actually computed for MT 4: 3+(4-3), 10+(9-7), 22+(16-15). *)
Lemma ex_value4 :
  option_map (map this) (get_sigma (after_pass ex_table ex_hist) 4 None false)
  = Some (map this (ql [4; 12; 23])).
Proof. vm_compute. reflexivity. Qed.

Lemma ex_increasing : increasing (ql [2; 4; 8]).
Proof.
  intros i j Hij. cbn in Hij.
  destruct i as [|[|[|i]]], j as [|[|[|j]]]; try lia; vm_compute; reflexivity.
Qed.

Lemma ex_separated : ends_separated (ql [2; 4; 8]).
Proof.
  intros i Hi. cbn in Hi. destruct i as [|[|[|i]]]; [| | |lia]; split; intros H;
    try (exfalso; apply H; reflexivity); (split; [|vm_compute; discriminate]);
    ((left; vm_compute; reflexivity) || (right; vm_compute; reflexivity)).
Qed.

Lemma ex_nodup : NoDup (map fst (edits ex_hist)) /\ Permutation (edits ex_hist) (edits ex_hist2).
Proof.
  split; [cbn; repeat (constructor; [cbn; intuition discriminate|]); constructor|].
  set (a := (51, VFlat (ql [4; 9; 16]))). set (b := (102, VFlat (ql [6; 6; 7; 7]))).
  set (c := (452, VFlat (ql [2; 4]))). set (d := (777, VFlat [])). set (f := (52, VFlat (ql [1]))).
  change (Permutation [a; b; c; d; f] [f; b; d; c; a]).
  transitivity [f; d; c; b; a]; [exact (Permutation_rev [a; b; c; d; f])|].
  constructor. transitivity [d; b; c; a]; [constructor; constructor|]. constructor.
Qed.

(** C07 witness: a file with absorption and a total (n,p) but no level data. *)
Definition np_table : table :=
  {| reactions := [(1, mkTab (ql [1; 2]) (ql [10; 10])); (101, mkTab (ql [1; 2]) (ql [4; 4]));
                   (2, mkTab (ql [1; 2]) (ql [6; 6])); (103, mkTab (ql [1; 2]) (ql [4; 4]))];
     nu := None; chi := None |}.
Definition np_hist : list call := [SetSigma 103 (VFlat (ql [5; 5]))].

Lemma np_wf : wf_table np_table.
Proof.
  split; [cbn; repeat (constructor; [cbn; intuition discriminate|]); constructor|].
  intros m rx H. cbn in H.
  repeat (destruct H as [H|H]; [injection H as <- <-; cbn; repeat split; (discriminate || reflexivity)|]).
  destruct H.
Qed.

Lemma absorption_not_following :
  wf_table np_table /\
  reading (after_pass np_table np_hist) false 103 (qz 1) <> reading (after_pass np_table np_hist) true 103 (qz 1) /\
  reading (after_pass np_table np_hist) false 1 (qz 1) <> reading (after_pass np_table np_hist) true 1 (qz 1) /\
  forall e, reading (after_pass np_table np_hist) false 101 e = reading (after_pass np_table np_hist) true 101 e.
Proof.
  split; [apply np_wf|]. split; [|split].
  - intros H. apply (f_equal this) in H. vm_compute in H. discriminate.
  - intros H. apply (f_equal this) in H. vm_compute in H. discriminate.
  - intros e. assert (Hk : In 101 (map fst (reactions np_table))) by (cbn; tauto).
    rewrite (reading_cur np_table _ _ _ np_wf (Inv_after_pass _ _ np_wf) Hk).
    rewrite (reading_orig np_table _ _ _ np_wf (Inv_after_pass _ _ np_wf) Hk).
    replace (tabm (after_pass np_table np_hist) 101) with (lookup 101 (reactions np_table));
      [reflexivity|]. vm_compute. reflexivity.
Qed.

Lemma absorption_never_follows t h at_e : wf_table t ->
  (forall m v, In (SetSigma m v) h -> 103 <= m <= 107 \/ m = 18) ->
  forall sm, sm = 101 \/ sm = 27 ->
  get_sigma (run (open_editor t) h) sm at_e false = get_sigma (open_editor t) sm at_e false.
Proof.
  intros Hwf Hh sm Hsm. apply untouched_keeps; auto. intros HT.
  inversion HT as [m v Hin|sm' m Hp Hk HTm]; subst.
  - apply Hh in Hin. lia.
  - assert (Hleaf : forall p, ~ part_of m p) by (intros p; unfold part_of in *; lia).
    inversion HTm as [m' v Hin|sm' m' Hp' Hk' HTm']; subst.
    + apply Hh in Hin. unfold part_of in Hp. lia.
    + now apply (Hleaf m').
Qed.

(** An edit that writes back exactly the evaluated values changes a redundant
    reaction at a grid point lying within 1e-5 (relative) of the last energy. *)
Definition close_table : table :=
  {| reactions := [(4,  mkTab [qz 1; qc 199999 2; qz 100000] (ql [0; 5; 7]));
                   (51, mkTab [qz 1; qc 199999 2; qz 100000] (ql [0; 5; 7]))];
     nu := None; chi := None |}.
Definition close_hist : list call := [SetSigma 51 (VFlat (ql [0; 5; 7]))].

Lemma identity_edit_changes_sum :
  wf_table close_table /\
  get_sigma (run (open_editor close_table) close_hist) 51 None false
    = get_sigma (open_editor close_table) 51 None false /\
  get_sigma (after_pass close_table close_hist) 4 None false
    <> get_sigma (open_editor close_table) 4 None false.
Proof.
  split; [|split].
  - split; [cbn; repeat (constructor; [cbn; intuition discriminate|]); constructor|].
    intros m rx H. cbn in H.
    repeat (destruct H as [H|H]; [injection H as <- <-; cbn; repeat split; (discriminate || reflexivity)|]).
    destruct H.
  - vm_compute. reflexivity.
  - intros H. apply (f_equal (option_map (map this))) in H. vm_compute in H. discriminate.
Qed.

(** Untouched reaction of the example history: elastic. *)
Lemma ex_untouched : ~ touched ex_table ex_hist 2.
Proof.
  intros H. inversion H as [m v Hin|sm m Hp Hk HT]; subst.
  - cbn in Hin. intuition discriminate.
  - unfold part_of in Hp. lia.
Qed.

(** set_sigma(1018, ...) with a wrong second length raises half way. *)
Definition chi_table : table :=
  {| reactions := [(18, mkTab (ql [1; 2]) (ql [10; 10]))]; nu := None;
     chi := Some [mkDist (ql [0; 1]) (ql [1; 1]) (ql [0; 1]); mkDist (ql [0; 1]) (ql [1; 1]) (ql [0; 1])] |}.

Lemma chi_edit_not_atomic : exists t pdfs, wf_table t /\
  snd (set_sigma (open_editor t) 1018 (VChi pdfs)) = false /\
  get_sigma_chi (fst (set_sigma (open_editor t) 1018 (VChi pdfs))) false
    <> get_sigma_chi (open_editor t) false.
Proof.
  exists chi_table, [ql [1; 3]; ql [1; 1; 1]]. split; [|split].
  - split; [cbn; repeat (constructor; [cbn; intuition discriminate|]); constructor|].
    intros m rx H. cbn in H.
    repeat (destruct H as [H|H]; [injection H as <- <-; cbn; repeat split; (discriminate || reflexivity)|]).
    destruct H.
  - vm_compute. reflexivity.
  - intros H. apply (f_equal (option_map (map (map this)))) in H. vm_compute in H. discriminate.
Qed.
