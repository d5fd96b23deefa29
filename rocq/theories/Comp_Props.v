(** C91: functions made of functions. *)
From Coq Require Import ZArith QArith Qcanon List Bool Sorted Arith Lia.
From Verif Require Import Num Comp_Model Comp_Spec Comp_Proofs.
Import ListNotations.
Local Open Scope nat_scope.
Local Open Scope list_scope.

(** With one breakpoint less than functions, the value is that of the function between the
    breakpoints around the argument, a breakpoint belonging to the function below it. *)
Theorem C91_regions : forall fs bs x i f, ascending bs -> region bs i x -> nth_error fs i = Some f -> call_regions fs bs x = Some (f x).
Proof. intros fs bs x i f S R E. unfold call_regions. rewrite (proj2 (search_iff bs x i S) R), E. reflexivity. Qed.
Print Assumptions C91_regions.
(** There is a value for every argument exactly if there are enough functions. *)
Theorem C91_everywhere : forall fs bs, ascending bs -> ((forall x, call_regions fs bs x <> None) <-> length bs < length fs).
Proof.
  intros fs bs S. split.
  - intros H. specialize (H (qsum (map qabs bs) + 1)%Qc). assert (R : region bs (length bs) (qsum (map qabs bs) + 1)%Qc).
    { split; [lia|]. split; [|intros j b J E; exfalso; assert (j < length bs) by (apply nth_error_Some; congruence); lia]. intros j b _ E. apply nth_error_In in E. assert (X : (b <= qsum (map qabs bs))%Qc).
      { clear - E. assert (P : forall l, (0 <= qsum (map qabs l))%Qc) by (induction l as [|c l IH]; [apply Qcle_refl|]; cbn [map]; rewrite qsum_cons; destruct (qabs_spec c) as [[? ->]|[? ->]]; qclra). induction bs as [|c bs IH]; [destruct E|]. cbn [map]. rewrite qsum_cons. specialize (P bs). destruct E as [E|E]; [subst b|specialize (IH E)]; destruct (qabs_spec c) as [[? Ec]|[? Ec]]; rewrite Ec; qclra. }
      qclra. }
    unfold call_regions in H. rewrite (proj2 (search_iff bs _ _ S) R) in H. apply nth_error_Some. intros X. rewrite X in H. now apply H.
  - intros L x. unfold call_regions. destruct (search_region bs x S) as (B & _). destruct (nth_error fs (searchsorted bs x)) eqn:E; [discriminate|]. apply nth_error_None in E. lia.
Qed.
Print Assumptions C91_everywhere.
(** Not true: breakpoints [i] and [i+1] are the limits of function [i], as documented.  The
    next function is used, and after the last there is none. *)
Theorem C91_documented_refuted : forall fs bs x i, ascending bs -> length bs = length fs + 1 -> documented bs i x ->
  call_regions fs bs x = match nth_error fs (i + 1) with Some f => Some (f x) | None => None end /\ (i + 1 = length fs -> call_regions fs bs x = None).
Proof.
  intros fs bs x i S L D. assert (E : call_regions fs bs x = match nth_error fs (i + 1) with Some f => Some (f x) | None => None end) by (unfold call_regions; now rewrite (proj2 (search_iff bs x _ S) (documented_region bs i x S D))).
  split; [exact E|]. intros X. rewrite E, X. now rewrite (proj2 (nth_error_None fs (length fs))).
Qed.
Print Assumptions C91_documented_refuted.
(** An array of numbers with fractions gets the values at its elements; it fails if one of
    them does. *)
Theorem C91_array : forall fs bs xs ys, call_regions_array false fs bs xs = Some ys <-> Forall2 (fun x y => call_regions fs bs x = Some y) xs ys.
Proof.
  intros fs bs. induction xs as [|x xs IH]; intros ys; cbn [call_regions_array].
  - split; [intros E; assert (ys = []) as -> by congruence; constructor|intros F; inversion F; reflexivity].
  - split.
    + destruct (call_regions fs bs x) as [y|] eqn:Ex; [|discriminate]. destruct (call_regions_array false fs bs xs) as [r|] eqn:Er; [|discriminate]. intros E. assert (ys = y :: r) as -> by congruence. constructor; [exact Ex|now apply IH].
    + intros F. inversion F as [|? y ? r Ex Fr]; subst. rewrite Ex. apply IH in Fr. now rewrite Fr.
Qed.
Print Assumptions C91_array.
(** Not true: an array of integers does, too.  Its values are right only if they are whole. *)
Theorem C91_integers_refuted : forall fs bs xs ys zs, call_regions_array false fs bs xs = Some ys -> call_regions_array true fs bs xs = Some zs -> (zs = ys <-> Forall whole_number ys) /\ Forall whole_number zs.
Proof.
  intros fs bs. induction xs as [|x xs IH]; intros ys zs E1 E2; cbn [call_regions_array] in *; [assert (ys = []) as -> by congruence; assert (zs = []) as -> by congruence; split; [split; constructor|constructor]|].
  destruct (call_regions fs bs x) as [y|]; [|discriminate]. destruct (call_regions_array false fs bs xs) as [r|]; [|discriminate]. destruct (call_regions_array true fs bs xs) as [s|]; [|discriminate]. assert (ys = y :: r) as -> by congruence. assert (zs = trunc y :: s) as -> by congruence. destruct (IH r s eq_refl eq_refl) as [[A B] C]. split; [split|].
  - intros E. constructor; [apply trunc_whole'; congruence|apply A; congruence].
  - intros F. inversion F; subst. f_equal; [now apply trunc_whole|now apply B].
  - constructor; [eexists; reflexivity|exact C].
Qed.
Print Assumptions C91_integers_refuted.
(** A sum has the sum of the values, whether at a number or at each of an array. *)
Theorem C91_sum : forall fs x, call_sum fs x = qsum (map (fun f : fn => f x) fs).
Proof. intros fs x. unfold call_sum. rewrite sum_acc. ring. Qed.
Print Assumptions C91_sum.
Theorem C91_sums : forall fs xs, fs <> [] -> call_sums fs xs = Array (map (fun x => qsum (map (fun f : fn => f x) fs)) xs).
Proof. intros fs xs N. rewrite (sums_ok fs xs N). f_equal. apply map_ext. intros x. apply C91_sum. Qed.
Print Assumptions C91_sums.
(** Not true: the sum of no functions at an array is an array. *)
Theorem C91_sums_refuted : forall xs, call_sums [] xs = Number 0%Qc.
Proof. reflexivity. Qed.
Print Assumptions C91_sums_refuted.
(** A combination can be made with one operation less than functions only, and applies them
    from left to right. *)
Theorem C91_combination : forall fs os, ((exists c, combine_of fs os = Some c) <-> length fs = length os + 1) /\
  forall c x v, combine_of fs os = Some c -> (call_combination c x = Some v <-> combined x fs os v).
Proof.
  intros fs os. unfold combine_of, set_operations. cbn [c_fns]. destruct (Z.eqb_spec (Z.of_nat (length os)) (Z.of_nat (length fs) - 1)%Z) as [E|E].
  - assert (L : length fs = length os + 1) by lia. split; [split; [intros _; exact L|intros _; eauto]|]. intros c x v Ec. assert (c = mkComb fs os) as -> by congruence. destruct (call_combined x os fs L) as (w & C & ->). split; [intros X; assert (w = v) as <- by congruence; exact C|intros X; now rewrite (combined_unique x fs os v X w C)].
  - split; [split; [intros (c & X); discriminate|intros L; lia]|]. intros c x v X. discriminate.
Qed.
Print Assumptions C91_combination.
(** Not true: functions and operations match.  Functions can be exchanged for others: too
    few make every call fail, surplus ones are not called. *)
Theorem C91_exchanged_refuted : forall fs os c gs x, combine_of fs os = Some c ->
  (length gs < length fs -> call_combination (set_functions gs c) x = None) /\
  (length gs = length fs -> forall more v, combined x gs os v -> call_combination (set_functions (gs ++ more) c) x = Some v).
Proof.
  intros fs os c gs x E. destruct (C91_combination fs os) as [[L _] _]. specialize (L (ex_intro _ c E)). unfold combine_of, set_operations in E. destruct (Z.eqb _ _); [|discriminate]. assert (c = mkComb fs os) as -> by (cbn in E; congruence). unfold set_functions. cbn [c_ops]. split.
  - intros H. unfold call_combination. cbn [c_fns c_ops]. destruct gs as [|g gs]; [reflexivity|]. cbn [nth_error]. apply apply_none; [lia|]. intros ->. cbn in *. lia.
  - intros H more v C. rewrite call_more by lia. destruct (call_combined x os gs ltac:(lia)) as (w & C' & ->). now rewrite (combined_unique x gs os v C w C').
Qed.
Print Assumptions C91_exchanged_refuted.

(** ** Cases *)
Definition cp_fs : list fn := [fun x => x; fun x => (x * x)%Qc; fun x => (x / qz 2)%Qc].
Definition cp_bs : list Qc := [qz 1; qz 4].
Definition cp_doc : list Qc := [qz 0; qz 1; qz 4; qz 9].
Lemma cp_asc : ascending cp_bs /\ ascending cp_doc.
Proof. split; repeat constructor; discriminate. Qed.
Example C91_hypotheses_met : ascending cp_bs /\ ascending cp_doc /\ length cp_bs < length cp_fs /\ length cp_doc = length cp_fs + 1 /\ documented cp_doc 1 (qz 3) /\ documented cp_doc 2 (qz 5) /\
  region cp_bs 1 (qz 3) /\ region cp_bs 1 (qz 4) /\ region cp_bs 2 (qz 5) /\
  map (call_regions cp_fs cp_bs) [qz 1; qz 3; qz 4; qz 5] = [Some (qz 1); Some (qz 9); Some (qz 16); Some (qc 5 2)] /\
  map (call_regions cp_fs cp_doc) [qz 3; qz 5] = [Some (qc 3 2); None] /\
  call_regions_array false cp_fs cp_bs [qz 1; qz 5] = Some [qz 1; qc 5 2] /\ call_regions_array true cp_fs cp_bs [qz 1; qz 5; - qz 3]%Qc = Some [qz 1; qz 2; - qz 3]%Qc /\
  call_sums cp_fs [qz 2; qz 4] = Array [qz 7; qz 22] /\
  (exists c, combine_of cp_fs [Qcplus; Qcmult] = Some c /\ call_combination c (qz 4) = Some (qz 40) /\ call_combination (set_functions (tl cp_fs) c) (qz 4) = None /\ call_combination (set_functions (cp_fs ++ cp_fs) c) (qz 4) = Some (qz 40)) /\
  combine_of cp_fs [Qcplus] = None.
Proof.
  destruct cp_asc as [A B]. split; [exact A|]. split; [exact B|]. split; [cbn; lia|]. split; [reflexivity|]. split; [exists (qz 1), (qz 4); repeat split; discriminate|]. split; [exists (qz 4), (qz 9); repeat split; discriminate|].
  split; [apply search_iff; [exact A|reflexivity]|]. split; [apply search_iff; [exact A|reflexivity]|]. split; [apply search_iff; [exact A|reflexivity]|].
  split; [vm_compute; reflexivity|]. split; [vm_compute; reflexivity|]. split; [vm_compute; reflexivity|]. split; [vm_compute; reflexivity|]. split; [vm_compute; reflexivity|]. split; [eexists; split; [reflexivity|]; vm_compute; repeat split|reflexivity].
Qed.
