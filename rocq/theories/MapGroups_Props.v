(** Property theorems C12: mapping group values on energies. *)
From Verif Require Import Num MapGroups_Model MapGroups_Spec MapGroups_Proofs.
Local Open Scope Qc_scope.

(** Every energy gets the value of its group, or the outside value. *)
Theorem C12_group_values : forall es hs val (v : nat -> Qc) max_arg min_arg out,
  let max_e := eff_max hs max_arg in let min_e := eff_min hs min_arg in
  hs <> [] -> decreasing hs -> min_e < last hs 0 -> hd 0 hs <= max_e ->
  (forall g, (1 <= g <= length hs)%nat -> val (Z.of_nat g) = Some (v g)) ->
  ~ In min_e es ->
  exists r, map_groups es hs val max_arg min_arg out = Ok r /\
            Forall2 (right_value hs v min_e max_e out) es r.
Proof. exact map_groups_values. Qed.
Print Assumptions C12_group_values.

(** ... and the groups partition (min_e, max_e], so the value is determined. *)
Theorem C12_groups_partition : forall hs min_e max_e e,
  hs <> [] -> decreasing hs -> min_e < last hs 0 -> hd 0 hs <= max_e ->
  ((min_e < e /\ e <= max_e) <-> exists! g, in_group hs min_e max_e g e).
Proof.
  intros hs min_e max_e e H1 H2 H3 H4. split.
  - intros [K1 K2]. destruct (group_exists hs min_e max_e H1 H2 H3 H4 e K1 K2) as [g Hg]. exists g. split; [exact Hg|].
    intros g' Hg'. now apply (group_unique hs min_e max_e H1 H2 H3 H4 e).
  - intros (g & Hg & _). now apply (in_group_range hs min_e max_e H1 H2 H3 H4 e g).
Qed.
Print Assumptions C12_groups_partition.

(** The two argument errors. *)
Theorem C12_raises_iff : forall es hs val max_arg min_arg out,
  hs <> [] -> decreasing hs ->
  (map_groups es hs val max_arg min_arg out = Raise MinTooHigh <-> eff_min hs min_arg = last hs 0) /\
  (map_groups es hs val max_arg min_arg out = Raise MaxTooLow <->
     eff_min hs min_arg <> last hs 0 /\ eff_max hs max_arg < hd 0 hs).
Proof. exact map_groups_raises. Qed.
Print Assumptions C12_raises_iff.

(** An energy equal to the lower range limit asks for a group that does not
    exist: with group labels 1..n the whole call fails. *)
Theorem C12_lowest_energy_fails : forall es hs val max_arg min_arg out,
  let max_e := eff_max hs max_arg in let min_e := eff_min hs min_arg in
  hs <> [] -> decreasing hs -> min_e < last hs 0 -> hd 0 hs <= max_e ->
  val (Z.of_nat (S (length hs))) = None -> In min_e es ->
  exists g, map_groups es hs val max_arg min_arg out = Raise (KeyError g).
Proof. exact map_groups_min. Qed.
Print Assumptions C12_lowest_energy_fails.

(** Non-trivial instance: three groups (20,10], (10,5], (5,1]. *)
Definition ex_hs := [qz 20; qz 10; qz 5].
Definition ex_val (g : Z) : option Qc :=
  match g with 1%Z => Some (qc 11 10) | 2%Z => Some (qc 9 10) | 3%Z => Some (qc 2 1) | _ => None end.
Definition ex_v (g : nat) : Qc := match g with 1%nat => qc 11 10 | 2%nat => qc 9 10 | _ => qc 2 1 end.
Example C12_hypotheses_met :
  ex_hs <> [] /\ decreasing ex_hs /\ eff_min ex_hs (Some (qz 1)) < last ex_hs 0 /\
  hd 0 ex_hs <= eff_max ex_hs (Some (qz 30)) /\
  (forall g, (1 <= g <= length ex_hs)%nat -> ex_val (Z.of_nat g) = Some (ex_v g)) /\
  ~ In (qz 1) [qz 2; qz 5; qz 10; qz 25; qz 40] /\
  (exists r, map_groups [qz 2; qz 5; qz 10; qz 25; qz 40] ex_hs ex_val (Some (qz 30)) (Some (qz 1)) 1 = Ok r /\
    map this r = [2; 2; 9 # 10; 11 # 10; 1]%Q).
Proof.
  split; [discriminate|]. split; [cbn; repeat split; qclra|]. split; [cbn; qclra|]. split; [cbn; qclra|].
  split.
  { intros g Hg. cbn in Hg. destruct g as [|[|[|[|g]]]]; try lia; reflexivity. }
  split.
  { intros H. cbn in H. repeat destruct H as [H|H]; try (apply (f_equal this) in H; discriminate). exact H. }
  eexists. split; [vm_compute; reflexivity|]. vm_compute. reflexivity.
Qed.
