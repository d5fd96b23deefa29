(** C57: the cross sections of a sampled file. *)
From Verif Require Import Num Chi_Model Chi_Spec AceEdit_Model AceEdit_Spec AceEdit_Examples MapGroups_Spec Samp_Model Samp_Spec Samp_Proofs.
From Coq Require Import ZArith Permutation.
Local Open Scope Z_scope.

(** A sampled reaction (or nu-bar) that is not kept in step with another sampled one:
    each value is the evaluated one times the factor of its group. *)
Theorem C57_values : forall t rs s r r0 lo v, wf_table t -> NoDup (map rq_mt rs) -> sample_file t rs = Some s ->
  In r rs -> alone t rs r -> rq_mt r <> 1018 -> rdata t (rq_mt r) = Some r0 -> length (ty r0) = length (tx r0) -> good_groups r lo v -> ~ In lo (tx r0) ->
  exists ys, get_energy s (rq_mt r) = Some (tx r0) /\ get_sigma s (rq_mt r) None false = Some ys /\ length ys = length (tx r0) /\
    forall i, (i < length (tx r0))%nat -> scaled_value r lo v (nth i (tx r0) 0%Qc) (nth i (ty r0) 0%Qc) (nth i ys 0%Qc).
Proof. exact file_values. Qed.
Print Assumptions C57_values.

(** Exactly the sampled reactions and those kept in step are marked for writing. *)
Theorem C57_marked : forall t rs s m, wf_table t -> NoDup (map rq_mt rs) -> sample_file t rs = Some s -> In m (map fst (reactions t)) ->
  (In m (adjusted s) <-> exists r, In r rs /\ above t (rq_mt r) m).
Proof. exact file_marked. Qed.
Print Assumptions C57_marked.

(** Well formed group data: no exception. *)
Theorem C57_succeeds : forall t rs, wf_table t -> NoDup (map rq_mt rs) ->
  (forall r, In r rs -> rq_mt r <> 1018 /\ exists r0 lo v, rdata t (rq_mt r) = Some r0 /\ length (ty r0) = length (tx r0) /\ good_groups r lo v /\ ~ In lo (tx r0)) ->
  exists s, sample_file t rs = Some s.
Proof. exact file_succeeds. Qed.
Print Assumptions C57_succeeds.

(** A reaction kept in step with a sampled one moves by the change of its parts, even
    if it is sampled itself. *)
Theorem C57_redundant : forall t rs s sm r, wf_table t -> NoDup (map rq_mt rs) -> sample_file t rs = Some s -> In sm (map fst (reactions t)) ->
  In r rs -> rq_mt r <> sm -> above t (rq_mt r) sm ->
  exists es ys, get_energy s sm = Some es /\ get_sigma s sm None false = Some ys /\
    ys = map (fun e => reading s true sm e + qsum (map (change s e) (constituents t sm)))%Qc es.
Proof. exact file_redundant. Qed.
Print Assumptions C57_redundant.

(** Everything not kept in step with a sampled reaction is as evaluated. *)
Theorem C57_untouched : forall t rs s m, wf_table t -> NoDup (map rq_mt rs) -> sample_file t rs = Some s -> (forall r, In r rs -> ~ above t (rq_mt r) m) ->
  (forall at_e, get_sigma s m at_e false = get_sigma (open_editor t) m at_e false) /\ (m = 1018 -> get_sigma_chi s false = get_sigma_chi (open_editor t) false).
Proof. exact file_untouched. Qed.
Print Assumptions C57_untouched.

(** The order of the reactions does not matter. *)
Theorem C57_order : forall t rs rs' s s', wf_table t -> NoDup (map rq_mt rs) -> Permutation rs rs' ->
  sample_file t rs = Some s -> sample_file t rs' = Some s' -> cur s = cur s' /\ forall m, In m (map fst (reactions t)) -> (In m (adjusted s) <-> In m (adjusted s')).
Proof. exact file_order. Qed.
Print Assumptions C57_order.

(** The factors of a reaction kept in step with another sampled one are lost: only
    those of the other reactions decide the file. *)
Theorem C57_lost : forall t rs rs' s s', wf_table t -> NoDup (map rq_mt rs) -> Permutation (map rq_mt rs) (map rq_mt rs') ->
  (forall r, In r rs -> alone t rs r -> In r rs') ->
  sample_file t rs = Some s -> sample_file t rs' = Some s' -> cur s = cur s' /\ forall m, In m (map fst (reactions t)) -> (In m (adjusted s) <-> In m (adjusted s')).
Proof. exact file_determined. Qed.
Print Assumptions C57_lost.

(** The spectrum: every pdf times the factors of its groups, renormalised as in C08. *)
Theorem C57_spectrum : forall t rs s r lo v ds, wf_table t -> NoDup (map rq_mt rs) -> sample_file t rs = Some s -> In r rs -> rq_mt r = 1018 ->
  chi t = Some ds -> In 18 (map fst (reactions t)) -> (forall d, In d ds -> ~ In lo (dx d) /\ length (dp d) = length (dx d)) -> good_groups r lo v ->
  exists pdfs ds', Forall2 (scaled_pdf r lo v) ds pdfs /\ chi (cur s) = Some ds' /\
    (all_fit ds pdfs -> length ds' = length ds /\ forall i d pdf, nth_error ds i = Some d -> nth_error pdfs i = Some pdf ->
       exists d', nth_error ds' i = Some d' /\ renormalised d pdf d').
Proof. exact file_spectrum_norm. Qed.
Print Assumptions C57_spectrum.

(** ** Example: a level with a zero at threshold, capture and nu-bar. *)
Definition sx_table : table :=
  {| reactions :=
       [(1,   mkTab (ql [1; 2; 4; 8]) (ql [30; 33; 37; 52]));
        (2,   mkTab (ql [1; 2; 4; 8]) (ql [20; 20; 20; 20]));
        (4,   mkTab (ql [2; 4; 8]) (ql [3; 7; 22]));
        (51,  mkTab (ql [2; 4; 8]) (ql [3; 7; 15]));
        (52,  mkTab (ql [4; 8]) (ql [0; 7]));
        (102, mkTab (ql [1; 2; 4; 8]) (ql [5; 5; 5; 5]))];
     nu := Some (mkTab (ql [1; 8]) (ql [2; 3]));
     chi := Some [mkDist (ql [0; 1; 2]) [qc 1 2; qc 1 2; qc 1 2] [0%Qc; qc 1 2; 1%Qc]] |}.
Definition two (a b : Qc) (g : Z) : option Qc := if g =? 1 then Some a else if g =? 2 then Some b else None.
Definition twon (a b : Qc) (g : nat) : Qc := if (g =? 1)%nat then a else b.
Definition sx_req (m : Z) (lo : Qc) (a b : Qc) : request := mkReq m (ql [10; 3]) [qz 3; lo] (two a b).
Definition sx_rs : list request := [sx_req 52 (qc 1 2) (qz 2) (qz 3); sx_req 102 (qc 3 2) (qc 1 2) (qz 3); sx_req 452 (qc 1 2) (qc 3 2) (qz 2)].

Lemma sx_wf : wf_table sx_table.
Proof.
  split; [cbn; repeat (constructor; [cbn; intuition discriminate|]); constructor|].
  intros m rx H. cbn in H.
  repeat (destruct H as [H|H]; [injection H as <- <-; cbn; repeat split; (discriminate || reflexivity)|]).
  destruct H.
Qed.
Lemma above_52 t p : above t 52 p -> p = 52 \/ p = 4 \/ p = 3 \/ p = 1.
Proof. induction 1 as [|sm p P _ _ IH]; [lia|]. unfold part_of in P. lia. Qed.
Lemma above_102 t p : above t 102 p -> p = 102 \/ p = 101 \/ p = 27 \/ p = 3 \/ p = 1.
Proof. induction 1 as [|sm p P _ _ IH]; [lia|]. unfold part_of in P. lia. Qed.
Lemma above_452 t p : above t 452 p -> p = 452.
Proof. induction 1 as [|sm p P _ _ IH]; [lia|]. unfold part_of in P. lia. Qed.
Lemma sx_alone r : In r sx_rs -> alone sx_table sx_rs r.
Proof.
  intros I r' I' D A. cbn in I, I'.
  repeat (destruct I' as [I'|I']; [subst r'; cbn in A, D; (apply above_52 in A || apply above_102 in A || apply above_452 in A); repeat (destruct I as [I|I]; [subst r; cbn in A, D; lia|]); destruct I |]). destruct I'.
Qed.
Lemma sx_groups m lo a b : (lo < qz 3)%Qc -> good_groups (sx_req m lo a b) lo (twon a b).
Proof.
  intros L. unfold good_groups, sx_req; cbn [rq_high rq_low rq_col]. split; [discriminate|]. split; [cbn; split; [reflexivity | exact I]|]. split; [exact L|].
  split; [split; [right; now left|]; intros x [<-|[<-|[]]]; [apply Qclt_le_weak; exact L | apply Qcle_refl]|].
  intros g [G1 G2]. cbn in G2. destruct g as [|[|[|g]]]; try lia; reflexivity.
Qed.
(** 52 has no value at 4, where it becomes its factor 2; the lowest group ends above the
    first energy of 102. *)
Example C57_hypotheses_met : wf_table sx_table /\ NoDup (map rq_mt sx_rs) /\ (forall r, In r sx_rs -> alone sx_table sx_rs r) /\
  (forall r, In r sx_rs -> rq_mt r <> 1018 /\ exists r0 lo v, rdata sx_table (rq_mt r) = Some r0 /\ length (ty r0) = length (tx r0) /\ good_groups r lo v /\ ~ In lo (tx r0)) /\
  (forall r, In r sx_rs -> ~ above sx_table (rq_mt r) 51) /\
  (exists s, sample_file sx_table sx_rs = Some s /\ In 52 (adjusted s) /\
     map (fun m => option_map (map this) (get_sigma s m None false)) [52; 102; 452; 4; 1]
     = [Some (map this (ql [2; 14])); Some (map this [qz 5; qz 15; qc 5 2; qc 5 2]); Some (map this [qz 4; qc 9 2]);
        Some (map this (ql [3; 9; 29])); Some (map this [qz 30; qz 43; qc 73 2; qc 113 2])]).
Proof.
  split; [exact sx_wf|]. split; [cbn; repeat (constructor; [cbn; intuition discriminate|]); constructor|]. split; [exact sx_alone|]. split; [|split].
  - assert (NI : forall x l, existsb (qeqb x) l = false -> ~ In x l) by (intros x l E I; assert (existsb (qeqb x) l = true) by (apply existsb_exists; exists x; split; [exact I | destruct (qeqb_spec x x); congruence]); congruence).
    intros r I. cbn in I. repeat (destruct I as [<-|I]; [split; [discriminate|]; cbn [rq_mt sx_req]; eexists _, _, _; split; [reflexivity|]; split; [reflexivity|]; split; [apply sx_groups; reflexivity | apply NI; vm_compute; reflexivity]|]). destruct I.
  - intros r I A. cbn in I. repeat (destruct I as [I|I]; [subst r; cbn in A; (apply above_52 in A || apply above_102 in A || apply above_452 in A); lia|]). destruct I.
  - eexists. split; [vm_compute; reflexivity|]. split; [vm_compute; tauto | vm_compute; reflexivity].
Qed.

(** "With all factors 1 a sampled file is the evaluated one": an evaluated 0 becomes 1,
    and the redundant reactions follow. *)
Theorem C57_neutral_refuted : exists t rs s, wf_table t /\ NoDup (map rq_mt rs) /\ (forall r, In r rs -> alone t rs r) /\
  (forall r g f, In r rs -> rq_col r g = Some f -> f = 1%Qc) /\ sample_file t rs = Some s /\
  exists m, In m (map fst (reactions t)) /\ get_sigma s m None false <> get_sigma (open_editor t) m None false.
Proof.
  exists sx_table, [sx_req 52 (qc 1 2) 1%Qc 1%Qc]. eexists. split; [exact sx_wf|]. split; [repeat constructor; intros []|]. split; [|split; [|split; [vm_compute; reflexivity|]]].
  - intros r [<-|[]] r' [<-|[]] D. now destruct D.
  - intros r g f [<-|[]] H. cbn in H. unfold two in H. destruct (g =? 1); [congruence|]. destruct (g =? 2); congruence.
  - exists 52. split; [cbn; tauto|]. intros H. apply (f_equal (option_map (map this))) in H. vm_compute in H. discriminate.
Qed.
Print Assumptions C57_neutral_refuted.

(** "Every sampled reaction shows its factors": total inelastic sampled with one of its
    levels shows only the level's. *)
Definition sx_lost (a : Qc) : list request := [sx_req 4 (qc 1 2) a a; sx_req 52 (qc 1 2) (qz 2) (qz 3)].
Theorem C57_own_factor_refuted : exists t rs s r lo v r0, wf_table t /\ NoDup (map rq_mt rs) /\ sample_file t rs = Some s /\
  In r rs /\ lookup (rq_mt r) (reactions t) = Some r0 /\ good_groups r lo v /\ ~ In lo (tx r0) /\ (forall g, v g = qz 9) /\
  option_map (map this) (get_sigma s (rq_mt r) None false) = Some (map this (ql [3; 9; 29])).
Proof.
  exists sx_table, (sx_lost (qz 9)). eexists. exists (sx_req 4 (qc 1 2) (qz 9) (qz 9)), (qc 1 2), (twon (qz 9) (qz 9)). eexists. split; [exact sx_wf|].
  split; [repeat constructor; cbn; intuition discriminate|]. split; [vm_compute; reflexivity|]. split; [now left|]. split; [reflexivity|]. split; [apply sx_groups; reflexivity|]. split.
  - intros I. cbn in I. repeat (destruct I as [I|I]; [apply (f_equal this) in I; discriminate|]). destruct I.
  - split; [intros g; unfold twon; now destruct (g =? 1)%nat | vm_compute; reflexivity].
Qed.
Print Assumptions C57_own_factor_refuted.
Example C57_lost_hypotheses_met : NoDup (map rq_mt (sx_lost (qz 9))) /\ Permutation (map rq_mt (sx_lost (qz 9))) (map rq_mt (sx_lost (qz 5))) /\
  (forall r, In r (sx_lost (qz 9)) -> alone sx_table (sx_lost (qz 9)) r -> In r (sx_lost (qz 5))) /\
  (exists s, sample_file sx_table (sx_lost (qz 9)) = Some s) /\ (exists s, sample_file sx_table (sx_lost (qz 5)) = Some s) /\
  above sx_table 52 4 /\ above sx_table 52 1.
Proof.
  assert (A4 : above sx_table 52 4) by (apply (above_sum _ _ 4 52); [unfold part_of; lia | cbn; tauto | constructor]).
  split; [repeat constructor; cbn; intuition discriminate|]. split; [apply Permutation_refl|]. split; [|split; [eexists; vm_compute; reflexivity|split; [eexists; vm_compute; reflexivity|split; [exact A4|]]]].
  - intros r [<-|[<-|[]]] AL; [|cbn; tauto]. exfalso. apply (AL (sx_req 52 (qc 1 2) (qz 2) (qz 3))); [cbn; tauto | discriminate | exact A4].
  - apply (above_sum _ _ 1 4); [unfold part_of; lia | cbn; tauto | exact A4].
Qed.
(** A spectrum sampled after a level; the factor is 2. *)
Definition sx_spec : list request := [sx_req 52 (qc 1 2) (qz 2) (qz 3); mkReq 1018 (ql [10; 1]) [qz 1; qc 1 2] (two (qz 3) (qz 1))].
Example C57_spectrum_hypotheses_met : NoDup (map rq_mt sx_spec) /\ good_groups (mkReq 1018 (ql [10; 1]) [qz 1; qc 1 2] (two (qz 3) (qz 1))) (qc 1 2) (twon (qz 3) (qz 1)) /\
  In 18 (map fst (reactions ex_table)) /\ (forall ds d, chi ex_table = Some ds -> In d ds -> ~ In (qc 1 2) (dx d) /\ length (dp d) = length (dx d)) /\
  exists s ds', sample_file ex_table sx_spec = Some s /\ chi (cur s) = Some ds' /\
    map (fun d => (map this (dp d), map this (dc d))) ds' = [([1 # 4; 1 # 4; 3 # 4], [0; 1 # 4; 1])]%Q.
Proof.
  split; [repeat constructor; cbn; intuition discriminate|]. split; [|split; [cbn; tauto|split]].
  - unfold good_groups; cbn [rq_high rq_low rq_col]. split; [discriminate|]. split; [cbn; split; [reflexivity | exact I]|]. split; [reflexivity|].
    split; [split; [right; now left|]; intros x [<-|[<-|[]]]; [apply Qclt_le_weak; reflexivity | apply Qcle_refl]|].
    intros g [G1 G2]. cbn in G2. destruct g as [|[|[|g]]]; try lia; reflexivity.
  - intros ds d E I. cbn in E. injection E as <-. destruct I as [<-|[]]. split; [|reflexivity]. cbn. intros K. repeat (destruct K as [K|K]; [apply (f_equal this) in K; discriminate|]). destruct K.
  - eexists _, _. split; [vm_compute; reflexivity|]. split; [reflexivity | vm_compute; reflexivity].
Qed.
