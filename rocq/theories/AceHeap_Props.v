(** Property theorems C06: private copies. *)
From Verif Require Import Num AceEdit_Model AceHeap_Model AceHeap_Spec AceHeap_Proofs.
Local Open Scope nat_scope.

(** For an ordinary MT: whatever happened before, and whatever is called after
    (as long as the array itself is not handed to set_sigma), writing into the
    array get_sigma returned changes nothing the editor holds. *)
Theorem C06_private_copy : forall w h1 mt u f a h2 i v,
  wf_world w -> valid_gives w h1 -> mt <> 452%Z -> mt <> 1018%Z ->
  snd (get_sigma_h (hrun w h1) mt u f) = Some [a] -> ~ gives h2 a ->
  let w2 := hrun (fst (get_sigma_h (hrun w h1) mt u f)) h2 in
  view (write w2 a i v) = view w2.
Proof. exact private_copy_reach. Qed.
Print Assumptions C06_private_copy.

(** False for nu-bar: the write goes through, and the next set_sigma records the
    modified array as the original. *)
Theorem C06_private_copy_nu_refuted : exists w a, wf_world w /\
  snd (get_sigma_h w 452 false (fun l => l)) = Some [a] /\
  view (write w a 0 1%Qc) <> view w /\
  (let w1 := write w a 0 1%Qc in
   let w2 := hrun w1 [New [qz 2; qz 4]; Set_ 452 6] in
   option_map (fun l => map (fun b => map this (content w2 b)) l) (lookup 452%Z (osigma (ed w2)))
   = Some [[1; 3]%Q] /\
   option_map (fun b => map this (content w2 b)) (orig_nu (ed w2)) = Some [0; 3]%Q).
Proof. exists ex_world. destruct nu_alias as [a H]. exists a. split; [apply ex_world_wf|exact H]. Qed.
Print Assumptions C06_private_copy_nu_refuted.

Theorem C06_private_copy_chi_refuted : exists w a, wf_world w /\
  snd (get_sigma_h w 1018 false (fun l => l)) = Some [a] /\
  view (write w a 0 0%Qc) <> view w.
Proof. exists ex_world. destruct chi_alias as [a H]. exists a. split; [apply ex_world_wf|exact H]. Qed.
Print Assumptions C06_private_copy_chi_refuted.

(** The array given to set_sigma is stored without copying. *)
Theorem C06_set_copies_refuted : exists w, wf_world w /\
  let w' := hrun w [New [qz 7; qz 8]; Set_ 102 6] in view (write w' 6 0 0%Qc) <> view w'.
Proof. exact (ex_intro _ ex_world (conj ex_world_wf set_alias)). Qed.
Print Assumptions C06_set_copies_refuted.

Example C06_hypotheses_met :
  wf_world ex_world /\ valid_gives ex_world [New [qz 7; qz 8]; Set_ 102 6] /\
  snd (get_sigma_h (hrun ex_world [New [qz 7; qz 8]; Set_ 102 6]) 102 false (fun l => l)) = Some [8] /\
  ~ gives [Set_ 102 6; SumRewrite 102 [qz 1; qz 1]; Write 8 0 (qz 9)] 8.
Proof.
  split; [apply ex_world_wf|]. split; [cbn; lia|]. split; [reflexivity|].
  intros [mt H]. cbn in H. destruct H as [H|[H|[H|[]]]]; inversion H.
Qed.
