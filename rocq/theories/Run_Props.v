(** Property theorems C60: the sampling program as a whole. *)
From Verif Require Import Num XNum Text Dec Chi_Model AceEdit_Model AceEdit_Spec MapGroups_Spec AceText_Model AceText_Spec Sampler_Model Sampler_Spec Mpi_Model Mpi_Spec
  AceEdit_Examples Samp_Model Samp_Spec Samp_Props Wr_Model Wr_Spec Wr_Proofs Wr_Props Run_Model Run_Spec Run_Proofs.
From Verif Require Store_Model.
From Coq Require Import ZArith NArith.
From Coq Require Rdefinitions.
Local Open Scope list_scope.
Local Open Scope nat_scope.

(** C60: on any number of processes, file number n holds the evaluated file with the
    factors of the n-th clean sample of every reaction asked for; no other number is
    written. *)
Theorem C60_files : forall fmt csv draw a st t z m adj G SS f w symbol size sched fs0 n, fit_run draw a st t z m adj G SS -> read_ace f = Some w -> 0 < size ->
  interleave (run_programs fmt csv draw a st t f symbol z m size) sched ->
  let name := str "./" ++ symbol ++ decZ m ++ str "_" ++ decN (N.of_nat n) in
  ((exists s, nth_good (SS (hd 0%Z adj)) n s) -> exists rs out, Forall2 (right_request G SS n) adj rs /\ sample_text fmt t rs f = Some out /\ exec fs0 sched name = Some out) /\
  (~ (exists s, nth_good (SS (hd 0%Z adj)) n s) -> exec fs0 sched name = fs0 name).
Proof. exact run_files. Qed.
Print Assumptions C60_files.

(** The written table: every value of a sampled reaction that no other sampled one feeds
    is the evaluated value times the value drawn for its group over the stored mean. *)
Theorem C60_values : forall fmt csv draw a st t z m adj G SS f w symbol size sched fs0 n x r0 lo, fit_run draw a st t z m adj G SS -> read_ace f = Some w -> 0 < size ->
  interleave (run_programs fmt csv draw a st t f symbol z m size) sched -> (exists s, nth_good (SS (hd 0%Z adj)) n s) ->
  In x adj -> (forall x', In x' adj -> x' <> x -> ~ above t x' x) ->
  rdata t x = Some r0 -> length (ty r0) = length (tx r0) -> good_data (G x) lo -> ~ In lo (tx r0) ->
  exists s out, exec fs0 sched (str "./" ++ symbol ++ decZ m ++ str "_" ++ decN (N.of_nat n)) = Some out /\ write_one fmt t s f = Some out /\
  exists smp v ys, nth_good (SS x) n smp /\ (forall k, k < length (G x) -> right_factor (G x) smp k (v (S k))) /\
    get_energy s x = Some (tx r0) /\ get_sigma s x None false = Some ys /\ length ys = length (tx r0) /\
    forall i, i < length (tx r0) -> scaled_by (map Store_Model.e_high (G x)) lo v (nth i (tx r0) 0%Qc) (nth i (ty r0) 0%Qc) (nth i ys 0%Qc).
Proof. exact run_values. Qed.
Print Assumptions C60_values.

(** Too few oversamples, nothing to sample, a reaction without stored data, plots only: no
    file is touched. *)
Theorem C60_nothing : forall fmt csv draw a st t z m ms adj f symbol size sched fs0, asked a st ms -> kept (offered t) ms adj ->
  ~ enough a \/ adj = [] \/ (exists x, In x adj /\ Store_Model.load st (zaid_text z m) (decZ x) = None) \/ a_plot_only a = true ->
  interleave (run_programs fmt csv draw a st t f symbol z m size) sched -> exec fs0 sched = fs0.
Proof. exact run_nothing. Qed.
Print Assumptions C60_nothing.

(** The number of oversamples has no effect beyond the check. *)
Theorem C60_oversamples : forall fmt csv draw a a' st t z m f symbol size, same_but_over a a' -> enough a -> enough a' ->
  run_programs fmt csv draw a st t f symbol z m size = run_programs fmt csv draw a' st t f symbol z m size.
Proof. exact run_over. Qed.
Print Assumptions C60_oversamples.

(** ** Example: 52 and 102 of U235 stored, the second of three samples has a negative value. *)
Definition rx_group (h l : Qc) (x : Z) : Store_Model.group := {| Store_Model.e_low := l; Store_Model.e_high := h; Store_Model.xsec := Fin (qz x); Store_Model.rel := Fin 1%Qc; Store_Model.sdev := Fin 1%Qc |}.
Definition rx_groups (x : Z) : list Store_Model.group := [rx_group (qz 10) (qz 3) x; rx_group (qz 3) (qc 1 2) 6].
Definition rx_corr : Store_Model.frame := Store_Model.Corr [[Store_Model.Fn Rdefinitions.R1; Store_Model.Fn Rdefinitions.R0]; [Store_Model.Fn Rdefinitions.R0; Store_Model.Fn Rdefinitions.R1]].
Definition rx_entry (zaid : text) (mt x : Z) : Store_Model.store :=
  [(Store_Model.corr_key zaid (decZ mt), rx_corr); (Store_Model.dev_key zaid (decZ mt), Store_Model.Dev (rx_groups x))].
Definition rx_store : Store_Model.store := rx_entry (str "92235") 52 7 ++ rx_entry (str "92235") 102 5 ++ rx_entry (str "92235") 16 5.
Definition rx_samples : list (list xnum) := [[Fin (qz 14); Fin (qz 6)]; [Fin (qz (-1)); Fin (qz 6)]; [Fin (qz 7); Fin (qz 18)]].
Definition rx_draw (_ : list Store_Model.group) (_ : list (list Store_Model.ext)) (_ : bool) (_ : dist) (n : nat) : list (list xnum) := firstn n rx_samples.
Definition rx_args (mts : list Z) (over : Z) : args := {| a_mts := mts; a_num := 3; a_over := over; a_dist := str "lognormal"; a_plot_only := false |}.
Definition rx_G (m : Z) : list Store_Model.group := rx_groups (if Z.eqb m 52 then 7 else 5).
Definition rx_SS (_ : Z) : list (list xnum) := rx_samples.

Lemma rx_fit over : over = (-1)%Z \/ (3 <= over)%Z -> fit_run rx_draw (rx_args [] over) rx_store sx_table 92 235 [52; 102]%Z rx_G rx_SS.
Proof.
  intros OV. constructor.
  - unfold enough. cbn. lia.
  - reflexivity.
  - exact sx_wf.
  - exists [16; 52; 102]%Z. split; [right; split; [reflexivity | vm_compute; reflexivity]|].
    apply kept_out; [unfold offered; cbn; intuition discriminate|]. repeat (apply kept_in; [unfold offered; cbn; tauto|]). constructor.
  - discriminate.
  - repeat (constructor; [cbn; intuition discriminate|]). constructor.
  - cbn. intuition discriminate.
  - exists true, LogNormal. split; [right; now left|]. intros x [<-|[<-|[]]]; (eexists; split; [reflexivity | reflexivity]).
  - intros x _. split; [reflexivity|]. intros s [<-|[<-|[<-|[]]]]; (split; [unfold rx_G; destruct (Z.eqb x 52); reflexivity|]; intros y [<-|[<-|[]]]; eauto).
  - assert (NI : forall x l, existsb (qeqb x) l = false -> ~ In x l) by (intros x l E I; assert (existsb (qeqb x) l = true) by (apply existsb_exists; exists x; split; [exact I | destruct (qeqb_spec x x); congruence]); congruence).
    intros x IX. assert (GD : good_data (rx_G x) (qc 1 2)).
    { unfold good_data, rx_G. cbn. split; [discriminate|]. split; [split; [reflexivity | exact I]|]. split; [reflexivity|]. split; [tauto|]. split; [intros y [<-|[<-|[]]]; discriminate|].
      intros r [<-|[<-|[]]]; cbn; (eexists; split; [reflexivity|]); [destruct (Z.eqb x 52)|]; discriminate. }
    destruct IX as [<-|[<-|[]]]; eexists _, (qc 1 2); (split; [reflexivity|]; split; [reflexivity|]; split; [exact GD | apply NI; vm_compute; reflexivity]).
  - intros x n s _ H. exists s. exact H.
Qed.
Lemma rx_good : nth_good rx_samples 0 [Fin (qz 14); Fin (qz 6)] /\ nth_good rx_samples 1 [Fin (qz 7); Fin (qz 18)] /\ forall s, ~ nth_good rx_samples 2 s.
Proof.
  split; [apply nth_good_iff; vm_compute; reflexivity|]. split; [apply nth_good_iff; vm_compute; reflexivity|]. intros s H. apply nth_good_iff in H. vm_compute in H. discriminate.
Qed.
(** Two processes: both files are written (the second in the middle of the first), the
    number of files is two for three samples asked for. *)
Example C60_hypotheses_met : exists w sched, let f := wx_file wx_words in let csv := fun x => [decZ (sm_mt x)] in
  fit_run rx_draw (rx_args [] (-1)) rx_store sx_table 92 235 [52; 102]%Z rx_G rx_SS /\ read_ace f = Some w /\
  interleave (run_programs fx csv rx_draw (rx_args [] (-1)) rx_store sx_table f (str "U") 92 235 2) sched /\
  map op_file sched = map str ["./U235_0"; "./U235_1"; "./U235_1"; "./U235_0"; "./U235_52_samples.csv"; "./U235_52_samples.csv"; "./U235_102_samples.csv"; "./U235_102_samples.csv"]%string /\
  (exists s, nth_good (rx_SS 52) 1 s) /\ ~ (exists s, nth_good (rx_SS 52) 2 s) /\
  (forall x x', In x [52; 102]%Z -> In x' [52; 102]%Z -> x' <> x -> ~ above sx_table x' x).
Proof.
  destruct (read_ace (wx_file wx_words)) as [w|] eqn:RA; [|vm_compute in RA; discriminate].
  set (P := run_programs fx (fun x => [decZ (sm_mt x)]) rx_draw (rx_args [] (-1)) rx_store sx_table (wx_file wx_words) (str "U") 92 235 2).
  assert (E : exists c0 c1 r, P = [[Trunc (str "./U235_0"); App (str "./U235_0") c0] ++ r; [Trunc (str "./U235_1"); App (str "./U235_1") c1]] /\
    map op_file r = map str ["./U235_52_samples.csv"; "./U235_52_samples.csv"; "./U235_102_samples.csv"; "./U235_102_samples.csv"]%string).
  { unfold P. eexists _, _, [_; _; _; _]. split; [vm_compute; reflexivity | reflexivity]. }
  destruct E as (c0 & c1 & r & E & ER).
  exists w, ([Trunc (str "./U235_0"); Trunc (str "./U235_1"); App (str "./U235_1") c1; App (str "./U235_0") c0] ++ r). cbv zeta.
  split; [apply rx_fit; now left|]. split; [exact RA|]. split.
  { fold P. rewrite E. cbn [app]. apply (il_step []). cbn [app]. apply (il_step [_] _ _ []). apply (il_step [_] _ _ []). cbn [app]. apply (il_step []). cbn [app]. clear. induction r as [|o r IH]; [apply il_nil; repeat constructor | apply (il_step []); exact IH]. }
  split; [rewrite map_app, ER; reflexivity|]. split; [exists [Fin (qz 7); Fin (qz 18)]; apply rx_good|]. split; [intros [s H]; exact (proj2 (proj2 rx_good) s H)|].
  intros x x' [<-|[<-|[]]] [<-|[<-|[]]] D A; try congruence; (apply above_52 in A || apply above_102 in A); lia.
Qed.
Example C60_nothing_hypotheses_met : asked (rx_args [52; 102]%Z 2) rx_store [52; 102]%Z /\ kept (offered sx_table) [52; 102]%Z [52; 102]%Z /\ ~ enough (rx_args [52; 102]%Z 2) /\
  kept (offered sx_table) [16]%Z [] /\ Store_Model.load rx_store (zaid_text 92 238) (decZ 52) = None /\ same_but_over (rx_args [] 4) (rx_args [] (-1)) /\ enough (rx_args [] 4).
Proof.
  split; [left; split; [discriminate | reflexivity]|]. split; [repeat (apply kept_in; [unfold offered; cbn; tauto|]); constructor|]. split; [unfold enough; cbn; lia|].
  split; [apply kept_out; [unfold offered; cbn; intuition discriminate | constructor]|]. split; [reflexivity|]. split; [repeat split | unfold enough; cbn; lia].
Qed.

(** "Oversampling yields as many files as asked for": the oversamples are never drawn. *)
Theorem C60_oversamples_refuted : exists fmt csv draw a st t z m adj G SS f w symbol sched, fit_run draw a st t z m adj G SS /\ read_ace f = Some w /\
  (Z.of_nat (a_num a) < a_over a)%Z /\ interleave (run_programs fmt csv draw a st t f symbol z m 1) sched /\
  exists n, n < a_num a /\ exec (fun _ => None) sched (str "./" ++ symbol ++ decZ m ++ str "_" ++ decN (N.of_nat n)) = None.
Proof.
  destruct (read_ace (wx_file wx_words)) as [w|] eqn:RA; [|vm_compute in RA; discriminate].
  assert (IL : forall p, interleave [p] p) by (induction p as [|o p IH]; [apply il_nil; repeat constructor | apply (il_step []); exact IH]).
  exists fx, (fun x => [decZ (sm_mt x)]), rx_draw, (rx_args [] 10), rx_store, sx_table, 92%Z, 235%Z, [52; 102]%Z, rx_G, rx_SS, (wx_file wx_words), w, (str "U").
  assert (PP : exists p, run_programs fx (fun x => [decZ (sm_mt x)]) rx_draw (rx_args [] 10) rx_store sx_table (wx_file wx_words) (str "U") 92 235 1 = [p]) by (eexists; vm_compute; reflexivity).
  destruct PP as [p PP]. exists p. assert (FR : fit_run rx_draw (rx_args [] 10) rx_store sx_table 92 235 [52; 102]%Z rx_G rx_SS) by (apply rx_fit; right; lia).
  split; [exact FR|]. split; [exact RA|]. split; [reflexivity|]. split; [rewrite PP; apply IL|]. exists 2. split; [cbn; lia|].
  apply (run_files fx (fun x => [decZ (sm_mt x)]) rx_draw _ _ _ _ _ _ _ _ _ _ (str "U") 1 p (fun _ => None) 2 FR RA (le_n 1)); [rewrite PP; apply IL|]. intros [s H]. exact (proj2 (proj2 rx_good) s H).
Qed.
Print Assumptions C60_oversamples_refuted.

(** "Without -mts the stored reactions of the file's nuclide are sampled": one reaction of
    another nuclide in the store stops the run, although data for the rest are there. *)
Theorem C60_other_nuclide_refuted : exists st t z m x x', In x (map fst (reactions t)) /\ Store_Model.load st (zaid_text z m) (decZ x) <> None /\
  In x' (map fst (reactions t)) /\ Store_Model.load st (zaid_text z m) (decZ x') = None /\ Store_Model.load st (str "92238") (decZ x') <> None /\
  forall fmt csv draw num over ds po f symbol size sched fs0,
    interleave (run_programs fmt csv draw (mkArgs [] num over ds po) st t f symbol z m size) sched -> exec fs0 sched = fs0.
Proof.
  exists (rx_entry (str "92235") 52 7 ++ rx_entry (str "92238") 102 5), sx_table, 92%Z, 235%Z, 52%Z, 102%Z.
  split; [cbn; tauto|]. split; [discriminate|]. split; [cbn; tauto|]. split; [reflexivity|]. split; [discriminate|].
  intros fmt csv draw num over ds po f symbol size sched fs0. apply (run_nothing fmt csv draw _ _ _ _ _ [52; 102]%Z [52; 102]%Z).
  - right. split; [reflexivity | vm_compute; reflexivity].
  - repeat (apply kept_in; [unfold offered; cbn; tauto|]); constructor.
  - right. right. left. exists 102%Z. split; [right; now left | reflexivity].
Qed.
Print Assumptions C60_other_nuclide_refuted.

(** "A reaction given twice is sampled once": its factors are applied twice. *)
Theorem C60_repeated_refuted : exists draw a st t z m l rs s x y ys, a_mts a = [x; x] /\ prepare draw a st t z m = Sampled l /\ requests l 0 = Some rs /\
  sample_file t rs = Some s /\ get_sigma (open_editor t) x None false = Some y /\ get_sigma s x None false = Some ys /\
  Forall (fun r => rq_col r 1%Z = Some (qz 2) /\ rq_col r 2%Z = Some (qz 2)) rs /\ ys = map (fun v => v * qz 4)%Qc y.
Proof.
  exists (fun _ _ _ _ _ => [[Fin (qz 10); Fin (qz 12)]]), {| a_mts := [102; 102]%Z; a_num := 1; a_over := (-1)%Z; a_dist := str "normal"; a_plot_only := false |}, rx_store, sx_table, 92%Z, 235%Z.
  match goal with |- exists l, _ => assert (E : exists l rs s, prepare (fun _ _ _ _ _ => [[Fin (qz 10); Fin (qz 12)]]) {| a_mts := [102; 102]%Z; a_num := 1; a_over := (-1)%Z; a_dist := str "normal"; a_plot_only := false |} rx_store sx_table 92 235 = Sampled l /\ requests l 0 = Some rs /\ sample_file sx_table rs = Some s /\
    Forall (fun r => rq_col r 1%Z = Some (qz 2) /\ rq_col r 2%Z = Some (qz 2)) rs /\ get_sigma s 102 None false = Some (ql [20; 20; 20; 20]%Z)) end.
  { eexists _, _, _. split; [vm_compute; reflexivity|]. split; [vm_compute; reflexivity|]. split; [vm_compute; reflexivity|]. split.
    - repeat (constructor; [split; (vm_compute; f_equal; apply Qc_is_canon; reflexivity)|]). constructor.
    - vm_compute. repeat f_equal; apply Qc_is_canon; reflexivity. }
  destruct E as (l & rs & s & E1 & E2 & E3 & E4 & E5). exists l, rs, s, 102%Z, (ql [5; 5; 5; 5]%Z), (ql [20; 20; 20; 20]%Z). repeat (split; [first [reflexivity | assumption]|]). cbn. repeat (f_equal; [apply Qc_is_canon; reflexivity|]). reflexivity.
Qed.
Print Assumptions C60_repeated_refuted.
