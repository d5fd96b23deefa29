(** Property theorems C13 and C14: the parallel writer. *)
From Verif Require Import XNum Text Dec Sampler_Model Mpi_Model Mpi_Spec Mpi_Proofs.
From Coq Require Import NArith.
Local Open Scope nat_scope.

(** C13: whatever the number of ranks and however their file operations
    interleave, the files at the end are those of a serial run. *)
Theorem C13_parallel_is_serial : forall prefix make csvs size ns sched s f,
  complete make ns -> NoDup ns -> 0 < size ->
  interleave (programs prefix make csvs size ns) sched ->
  exec s sched f = exec s (serial prefix make csvs ns) f.
Proof. exact parallel_is_serial. Qed.
Print Assumptions C13_parallel_is_serial.

(** ... and the serial run holds the content built for each sample. *)
Theorem C13_serial_content : forall prefix make csvs ns s n ps,
  complete make ns -> NoDup ns -> In n ns -> make n = Some ps ->
  exec s (serial prefix make csvs ns) (sample_name prefix n) = Some (concat ps).
Proof. exact serial_content. Qed.
Print Assumptions C13_serial_content.

(** Every sample number belongs to exactly one rank. *)
Theorem C13_one_owner : forall (size : nat) (n : N), 0 < size ->
  exists! r : nat, r < size /\ (n mod N.of_nat size)%N = N.of_nat r.
Proof.
  intros size n H. exists (owner size n). split.
  - split; [now apply owner_lt|]. unfold owner. now rewrite N2Nat.id.
  - intros r [H1 H2]. unfold owner. rewrite H2. apply Nat2N.id.
Qed.
Print Assumptions C13_one_owner.

(** Stopped anywhere, each sample file is untouched or holds a beginning of its
    final content. *)
Theorem C13_crash_prefix : forall prefix make csvs size ns s0 s n ps,
  complete make ns -> NoDup ns -> 0 < size ->
  partial_run (programs prefix make csvs size ns) s -> In n ns -> make n = Some ps ->
  let f := sample_name prefix n in
  exec s0 s f = s0 f \/ exists k, exec s0 s f = Some (concat (firstn k ps)).
Proof. exact crash_prefix. Qed.
Print Assumptions C13_crash_prefix.

Definition ex_make (n : N) : option (list text) := Some [str "sample "; decN n].
Example C13_hypotheses_met :
  complete ex_make (upto 5) /\ NoDup (upto 5) /\
  (exists sched, interleave (programs (str "U235_") ex_make [(102%N, [str "x"])] 2 (upto 3)) sched /\
     map op_file sched = map str ["U235_0"; "U235_1"; "U235_0"; "U235_1"; "U235_0"; "U235_1";
       "U235_2"; "U235_2"; "U235_2"; "U235_102_samples.csv"; "U235_102_samples.csv"]%string).
Proof.
  split; [intros n _; discriminate|]. split; [apply upto_NoDup|].
  eexists. split.
  - vm_compute.
    do 3 (apply (il_step []); cbn [app]; match goal with |- interleave [?a; ?o :: ?b] _ => apply (il_step [a] o b []) end; cbn [app]).
    do 5 (apply (il_step []); cbn [app]). apply il_nil. repeat constructor.
  - vm_compute. reflexivity.
Qed.

(** C14: with tables numbered 0..k-1 per MT, the loop of every rank completes
    exactly when no later MT has fewer samples than the first. *)
Definition make_from (tables : list (list N)) (content : N -> list text) (n : N) : option (list text) :=
  if available tables n then Some (content n) else None.

Theorem C14_completes_iff : forall prefix content size k0 ks, 0 < size ->
  let tables := upto k0 :: map upto ks in
  ((forall r, r < size ->
      snd (loop prefix (make_from tables content) (N.of_nat size) (N.of_nat r) (upto k0)) = true) <->
   (forall k, In k ks -> k0 <= k)).
Proof.
  intros prefix content size k0 ks Hs tables. split.
  - intros H k Hk. destruct (Nat.le_gt_cases k0 k) as [|L]; [assumption|]. exfalso.
    specialize (H (owner size (N.of_nat k)) (owner_lt size _ Hs)).
    rewrite loop_completes_iff in H. apply (H (N.of_nat k)).
    + apply upto_In. lia.
    + unfold owner. now rewrite N2Nat.id.
    + unfold make_from. destruct (available tables (N.of_nat k)) eqn:E; [|reflexivity].
      rewrite available_iff in E. specialize (E (upto k)). exfalso.
      assert (In (N.of_nat k) (upto k)) by (apply E; right; now apply in_map). apply upto_In in H0. lia.
  - intros H r _. apply loop_completes_iff. intros n Hn _. unfold make_from.
    destruct (available tables n) eqn:E; [discriminate|]. exfalso.
    assert (K : available tables n = true); [|congruence].
    apply available_iff. intros t [<-|Ht]; [exact Hn|]. apply in_map_iff in Ht as (k & <- & Hk).
    apply upto_In. apply upto_In in Hn. apply H in Hk. lia.
Qed.
Print Assumptions C14_completes_iff.

(** "Every drawn sample can be written for every MT" is false: filtering drops
    negative samples per MT, and the run aborts. *)
Definition one_neg (c : bool) (d : dist) (n : nat) : list (list xnum) :=
  match n with O => [] | S k => [Fin (qz (-1))] :: repeat [Fin (qz 1)] k end.
Definition none_neg (c : bool) (d : dist) (n : nat) : list (list xnum) := repeat [Fin (qz 1)] n.

Theorem C14_all_written_refuted :
  exists draw1 draw2 rel1 full1 rel2 full2,
    (forall c d n, length (draw1 c d n) = n) /\ (forall c d n, length (draw2 c d n) = n) /\
    sample_xsec draw1 [Fin (qz 1)] (str "normal") 3 false true = SOk (rel1, full1) /\
    sample_xsec draw2 [Fin (qz 1)] (str "normal") 3 false true = SOk (rel2, full2) /\
    forall prefix content,
      snd (loop prefix (make_from [map N.of_nat (cols rel1); map N.of_nat (cols rel2)] content) 1 0
             (map N.of_nat (cols rel1))) = false.
Proof.
  exists none_neg, one_neg. do 4 eexists.
  split; [intros; apply repeat_length|]. split; [intros c d [|n]; cbn; [|rewrite repeat_length]; reflexivity|].
  split; [reflexivity|]. split; [reflexivity|]. intros prefix content. vm_compute. reflexivity.
Qed.
Print Assumptions C14_all_written_refuted.

(** Surplus samples of later MTs are never written. *)
Theorem C14_surplus_ignored : forall prefix content csvs k0 ks n s,
  (forall k, In k ks -> k0 <= k) -> k0 <= N.to_nat n ->
  exec s (serial prefix (make_from (upto k0 :: map upto ks) content) csvs (upto k0)) (sample_name prefix n)
  = s (sample_name prefix n).
Proof.
  intros prefix content csvs k0 ks n s H Hn.
  rewrite (exec_filter _ _ s s eq_refl).
  assert (C : complete (make_from (upto k0 :: map upto ks) content) (upto k0)).
  { intros m Hm. unfold make_from. destruct (available _ m) eqn:E; [discriminate|].
    assert (K : available (upto k0 :: map upto ks) m = true); [|congruence].
    apply available_iff. intros t [<-|Ht]; [exact Hm|]. apply in_map_iff in Ht as (k & <- & Hk).
    apply upto_In. apply upto_In in Hm. apply H in Hk. lia. }
  unfold serial. rewrite rank_prog_eq by exact C. rewrite filter_app, loop_sample by (auto; apply upto_NoDup).
  assert (X : existsb (N.eqb n) (upto k0) = false).
  { destruct (existsb (N.eqb n) (upto k0)) eqn:X; [|reflexivity]. apply existsb_exists in X as (m & Hm & E).
    apply N.eqb_eq in E. subst. apply upto_In in Hm. lia. }
  rewrite X. cbn [andb N.eqb app]. rewrite csv_ops_sample. reflexivity.
Qed.
Print Assumptions C14_surplus_ignored.

Example C14_hypotheses_met : (forall k, In k [4; 3] -> 3 <= k) /\ ~ (forall k, In k [4; 2] -> 3 <= k).
Proof. split; [intros k [<-|[<-|[]]]; lia|]. intros H. specialize (H 2 ltac:(cbn; auto)). lia. Qed.

(** Without completeness the claim fails: when one sample cannot be built, a
    two-rank run still writes later samples and the csv that a serial run, which
    aborts at that sample, does not. *)
Theorem C13_parallel_is_serial_on_failure_refuted :
  exists make csvs sched, 
    interleave (programs (str "U_") make csvs 2 (upto 3)) sched /\
    exec (fun _ => None) sched (sample_name (str "U_") 2) <>
    exec (fun _ => None) (serial (str "U_") make csvs (upto 3)) (sample_name (str "U_") 2) /\
    exec (fun _ => None) sched (csv_name (str "U_") 102) <>
    exec (fun _ => None) (serial (str "U_") make csvs (upto 3)) (csv_name (str "U_") 102).
Proof.
  exists (fun n => if N.eqb n 1 then None else Some [decN n]), [(102%N, [str "x"])].
  eexists. split.
  - vm_compute. do 6 (apply (il_step []); cbn [app]). apply il_nil. repeat constructor.
  - split; vm_compute; discriminate.
Qed.
Print Assumptions C13_parallel_is_serial_on_failure_refuted.
