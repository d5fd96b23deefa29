(** C44: components of a reaction.  C54: sums built on reading a library file.  C55: a
    library written and read. *)
From Coq Require Import ZArith QArith Qcanon List Bool Arith.
From Verif Require Import Num Sums_Model Sums_Spec Sums_Proofs.
Import ListNotations.
Local Open Scope nat_scope.

(** The recursion ends, whatever reactions there are. *)
Theorem C44_ends : forall present mt, exists l, get_reaction_components present mt = Some l.
Proof. exact get_some. Qed.
Print Assumptions C44_ends.
(** It gives, each once, exactly the reactions within this one that are there and no
    part of which is there. *)
Theorem C44_exact : forall present mt l, get_reaction_components present mt = Some l -> components (fun m => present m = true) mt l.
Proof. exact get_spec. Qed.
Print Assumptions C44_exact.

(** The reactions read are closed under the sum rules, if fission parts come with
    fission. *)
Theorem C54_closed : forall d, fission_told d -> closed d (rebuild d).
Proof. exact rebuild_closed. Qed.
Print Assumptions C54_closed.
(** If the sums stored are sums of components, so are those built. *)
Theorem C54_values : forall d m l, fission_told d ->
  (forall m l, there d m -> components (there d) m l -> value d m = total (value d) l) -> components (there d) m l ->
  (there (rebuild d) m <-> l <> []) /\ value (rebuild d) m = total (value d) l.
Proof. exact rebuild_values. Qed.
Print Assumptions C54_values.
(** Else not: MT 27 is summed before MT 18, on which it depends (against the comment in
    the source), and the total lacks fission. *)
Definition no18 : held := [(2, qz 10); (19, qz 5); (102, qz 1)]%Z.
Theorem C54_closed_refuted : look (rebuild no18) 18 = Some (qz 5) /\ look (rebuild no18) 101 = Some (qz 1) /\
  look (rebuild no18) 27 = Some (qz 1) /\ look (rebuild no18) 1 = Some (qz 11) /\ ~ closed no18 (rebuild no18).
Proof.
  split; [reflexivity|]. split; [reflexivity|]. split; [reflexivity|]. split; [reflexivity|]. intros C.
  assert (P : forall b, In b [18; 101]%Z <-> part 27 b) by (clear; intros b; unfold part; cbn [In]; lia).
  assert (N : NoDup [18; 101]%Z) by (clear; repeat (constructor; [cbn; intuition discriminate|]); constructor).
  assert (H : value (rebuild no18) 27 = total (value (rebuild no18)) [18; 101]%Z).
  { apply (c_sum _ _ C 27%Z [18; 101]%Z); [intros T; apply T; reflexivity | vm_compute; discriminate | exact N | exact P]. }
  clear - H. vm_compute in H. discriminate.
Qed.
Print Assumptions C54_closed_refuted.

(** Redundant reactions left out on writing come back with the same cross section. *)
Theorem C55_round_trip : forall rs, sound_library rs -> fission_told (write_read rs) ->
  forall r, In r rs -> look (through_file rs) (rmt r) = Some (rxs r).
Proof. exact file_round. Qed.
Print Assumptions C55_round_trip.
(** What is in the file: every reaction that is not redundant, and the redundant ones kept
    for their products. *)
Theorem C55_written : forall rs r, In r rs -> NoDup (map rmt rs) -> (look (write_read rs) (rmt r) <> None <-> redundant r = false \/ kept_whole r).
Proof. exact written_iff. Qed.
Print Assumptions C55_written.
(** A library with fission chances but no photons from fission loses fission from its
    total. *)
Definition actinide (photons : bool) : list reaction :=
  [mkRx 1 (qz 20) true false; mkRx 101 (qz 3) true false; mkRx 2 (qz 10) false false; mkRx 4 (qz 2) true false; mkRx 18 (qz 5) true photons;
   mkRx 19 (qz 4) false false; mkRx 20 (qz 1) false false; mkRx 51 (qz 2) false false; mkRx 102 (qz 3) false true].
Theorem C55_fission_refuted : sound_library (actinide false) /\ look (through_file (actinide false)) 1 = Some (qz 15).
Proof. split; [apply checks_sound; vm_compute; reflexivity | vm_compute; reflexivity]. Qed.
Print Assumptions C55_fission_refuted.

(** *** Hypotheses met *)
Example C44_hypotheses_met : get_reaction_components (fun m => existsb (Z.eqb m) [2; 4; 51; 52; 18; 102; 103; 600; 1]%Z) 1 = Some [2; 51; 52; 18; 102; 600]%Z.
Proof. vm_compute. reflexivity. Qed.
Example C54_hypotheses_met : let d := [(2, qz 10); (18, qz 5); (102, qz 1); (51, qz 2)]%Z in fission_told d /\ look (rebuild d) 1 = Some (qz 18).
Proof. split; [left; vm_compute; discriminate | vm_compute; reflexivity]. Qed.
Example C55_written_hypotheses_met : NoDup (map rmt (actinide true)) /\ map fst (write_read (actinide true)) = [2; 4; 18; 19; 20; 51; 102]%Z.
Proof. split; [repeat (constructor; [cbn; intuition discriminate|]); constructor | reflexivity]. Qed.
Example C55_hypotheses_met : sound_library (actinide true) /\ fission_told (write_read (actinide true)) /\ look (write_read (actinide true)) 1 = None /\
  look (through_file (actinide true)) 1 = Some (qz 20).
Proof. split; [apply checks_sound; vm_compute; reflexivity|]. split; [left; vm_compute; discriminate|]. split; vm_compute; reflexivity. Qed.
