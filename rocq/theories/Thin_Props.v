(** C45: thinning a table.  [thinned] and [near_line] are from Thin_Spec. *)
From Coq Require Import ZArith QArith Qcanon List Bool Arith Sorted Lia.
From Verif Require Import Num Thin_Model Thin_Spec Thin_Proofs.
Import ListNotations.
Local Open Scope nat_scope.

(** The result is the table at some indices, first and last among them; what is left
    out is not zero and lies near the line between its neighbours. *)
Theorem C45_tolerance : forall tol x y, (0 < tol)%Qc -> x <> [] -> StronglySorted Qclt x ->
  exists ks, thinned tol x y ks /\ thin tol x y = (map (fun i => nth i x 0%Qc) ks, map (fun i => nth i y 0%Qc) ks).
Proof. intros tol x y T N _. now apply thin_result. Qed.
Print Assumptions C45_tolerance.
(** All that can go does: of points on a line, none zero between the ends, only the
    ends stay. *)
Theorem C45_line : forall tol x y a b, (0 <= tol)%Qc -> length x = length y -> StronglySorted Qclt x ->
  (forall i, i < length x -> nth i y 0%Qc = (a + b * nth i x 0%Qc)%Qc) -> (forall i, 0 < i < length x - 1 -> nth i y 0%Qc <> 0%Qc) -> 2 <= length x ->
  thin tol x y = ([nth 0 x 0%Qc; nth (length x - 1) x 0%Qc], [nth 0 y 0%Qc; nth (length x - 1) y 0%Qc]).
Proof. exact on_line. Qed.
Print Assumptions C45_line.
(** With tolerance 0 a zero is lost, though far from the line. *)
Theorem C45_zero_tolerance_refuted : thin 0 [qz 0; qz 1; qz 2] [qz 1; qz 0; qz 1] = ([qz 0; qz 2], [qz 1; qz 1]).
Proof. reflexivity. Qed.
Print Assumptions C45_zero_tolerance_refuted.

(** *** Hypotheses met *)
Definition demo_x := map qz [0; 1; 2; 3; 4; 5]%Z.
Definition demo_y := map qz [10; 20; 30; 31; 0; 40]%Z.
Example C45_hypotheses_met : (0 < qc 1 100)%Qc /\ StronglySorted Qclt demo_x /\
  thin (qc 1 100) demo_x demo_y = (map qz [0; 2; 3; 4; 5]%Z, map qz [10; 30; 31; 0; 40]%Z).
Proof. split; [reflexivity|]. split; [repeat constructor | reflexivity]. Qed.
Example C45_line_hypotheses_met : thin (qc 1 100) (map qz [1; 2; 4; 7]%Z) (map qz [1; 3; 7; 13]%Z) = (map qz [1; 7]%Z, map qz [1; 13]%Z) /\
  forall i, i < 4 -> nth i (map qz [1; 3; 7; 13]%Z) 0%Qc = (- qz 1 + qz 2 * nth i (map qz [1; 2; 4; 7]%Z) 0)%Qc.
Proof. split; [reflexivity|]. intros i H. do 4 (destruct i; [reflexivity|]). lia. Qed.
